(** C65, C98, C99, C100: the Gaussian-mixture driver. *)
From Coq Require Import Reals Lra Floats.SpecFloat.
From Verif Require Import Base Num Spec DistModel ClustersModel PartitionModel ParModel KmeansModel MatrixModel GmmModel.
From Verif Require Import MatLemmas VecLemmas DistProofs PartitionProofs ParProofs NearProofs KmeansProofs RunProofs InitProofs PropertiesMatrix PropertiesInverse PropertiesRun MbProofs.
Set Implicit Arguments.

(** ** Specification *)

(** the value the program computes for row [x] and one component: the mean [mu],
    the inverse covariance [inv] (d x d), the determinant [det] and the weight [pk]:
    pk * (-1/2 (x-mu) inv (x-mu)^T - (1/2 * 5 * log2(2 pi) - 1/2 log2 det)) *)
Definition wform (N : Num) (log2 : car N -> car N) (two_pi : car N) (d : nat) (x mu inv : list (car N)) (det pk : car N) : car N :=
  let z := nzero N in
  let half := ndiv N (none N) (nofZ N 2) in
  let dv i := nsub N (nth i x z) (nth i mu z) in
  let y c := bigsum N d (fun r => nmul N (dv r) (nth (r * d + c) inv z)) in
  let q := bigsum N d (fun c => nmul N (y c) (dv c)) in
  nmul N (nsub N (nmul N (nsub N z half) q) (nsub N (nmul N (nmul N half (nofZ N 5)) (log2 two_pi)) (nmul N half (log2 det)))) pk.

(** the sizes of the driver's arrays *)
Definition gshape {N} (g : kcfg N) (s : gst N) : Prop :=
  length (gm_mu s) = g_k g * g_ncol g /\ length (gm_inv s) = g_k g /\ (forall m, In m (gm_inv s) -> length m = g_ncol g * g_ncol g) /\
  length (gm_dets s) = g_k g /\ length (gm_Pk s) = g_k g /\ length (gm_P s) = g_nrow g * g_k g /\ length (gm_Px s) = g_nrow g.

(** ** One value *)
Section W.
Variables (N : Num) (log2 : car N -> car N) (two_pi : car N).
Notation T := (car N).
Notation z := (nzero N).
Variables (g : kcfg N) (data : list T) (ws : list (worker N)).
Let d := g_ncol g.
Let k := g_k g.
Hypothesis W : wok (g_nrow g) d data ws.
Hypothesis Hd : length data = g_nrow g * d.

Lemma vdiff_ok (l r : ptr T) n x y : slice (fst l) (snd l) n = x -> slice (fst r) (snd r) n = y -> length x = n -> length y = n ->
  exists o, vdiff l r n (repeat z n) = Ok o /\ is_vector o n (fun i => nsub N (nth i x z) (nth i y z)).
Proof.
  clear. intros Ex Ey Lx Ly. unfold vdiff.
  replace (if length (repeat z n) =? 0 then repeat z n else repeat z n) with (repeat z n) by (destruct (length (repeat z n) =? 0); reflexivity).
  assert (G : okp (loop n (fun i o => let* a := pget l i in let* b := pget r i in aset o i (nsub N a b)) (repeat z n))
     (fun o => length o = n /\ forall i, i < n -> nth i o z = nsub N (nth i x z) (nth i y z))).
  { eapply okp_mono; [apply (loop_okp (fun j o => length o = n /\ forall i, i < j -> nth i o z = nsub N (nth i x z) (nth i y z)))|].
    - split; [apply repeat_length|lia].
    - intros j o Hj (Lo & Ho).
      assert (P1 : pget l j = Ok (nth j x z)).
      { unfold pget. apply aget_ok. rewrite <- Ex. rewrite nth_slice by exact Hj. apply nth_error_nth'. 
        destruct (Nat.lt_ge_cases (snd l + j) (length (fst l))) as [|Hge]; auto. exfalso.
        assert (Q : length (slice (fst l) (snd l) n) <= j) by (unfold slice; rewrite firstn_length, skipn_length; lia). rewrite Ex in Q. lia. }
      assert (P2 : pget r j = Ok (nth j y z)).
      { unfold pget. apply aget_ok. rewrite <- Ey. rewrite nth_slice by exact Hj. apply nth_error_nth'. 
        destruct (Nat.lt_ge_cases (snd r + j) (length (fst r))) as [|Hge]; auto. exfalso.
        assert (Q : length (slice (fst r) (snd r) n) <= j) by (unfold slice; rewrite firstn_length, skipn_length; lia). rewrite Ey in Q. lia. }
      rewrite P1, P2. cbn [Base.bind]. rewrite aset_ok by lia. cbn [okp]. rewrite upd_length. split; [exact Lo|].
      intros i Hi. rewrite nth_upd by lia. destruct (Nat.eqb_spec i j) as [->|Hne]; [reflexivity|apply Ho; lia].
    - auto. }
  destruct (loop n _ _) as [o|]; [|destruct G]. exists o. split; [reflexivity|exact G].
Qed.

Lemma wend (w : worker N) : In w ws -> w_start w + w_nrow w <= g_nrow g.
Proof.
  intros Hw. apply In_nth_error in Hw as (t & Et). destruct W as (Ht & _).
  apply (@ntiles_in _ _ _ Ht t). unfold w_ranges. rewrite nth_error_map, Et. reflexivity.
Qed.

Lemma weight_ok (w : worker N) (s : gst N) row cid : In w ws -> row < w_nrow w -> row < k -> cid < k -> gshape g s ->
  weight log2 two_pi g w s row cid = Ok (wform N log2 two_pi d (Base.row data d (w_start w + row)) (Base.row (gm_mu s) d row) (nth cid (gm_inv s) []) (nth cid (gm_dets s) z) (nth cid (gm_Pk s) z)).
Proof.
  intros Hw Hr Hrk Hc (Lmu & Linv & Hinv & Ldet & Lpk & _ & _). unfold weight. fold d.
  assert (Hx := proj2 W w row Hw Hr).
  assert (Lx : length (Base.row data d (w_start w + row)) = d).
  { apply row_length with (n := g_nrow g); [exact Hd|]. pose proof (wend w Hw). lia. }
  assert (Lm : length (Base.row (gm_mu s) d row) = d) by (apply row_length with (n := k); [exact Lmu|exact Hrk]).
  destruct (@vdiff_ok (wrow w d row) (gm_mu s, row * d) d _ _ Hx eq_refl Lx Lm) as (o & Eo & Lo & Ho).
  rewrite Eo. cbn [Base.bind]. rewrite (@aget_nth _ _ cid [] ltac:(rewrite Linv; exact Hc)). cbn [Base.bind].
  assert (Li : length (nth cid (gm_inv s) []) = d * d) by (apply Hinv, nth_In; rewrite Linv; exact Hc).
  destruct (@c47_linalg N o [] (nth cid (gm_inv s) []) d d Lo Li) as ((y & Ey & Ly & Hy) & _).
  rewrite Ey. cbn [Base.bind]. destruct (@c47_linalg N y o (repeat z (d * 0)) d 0 Ly ltac:(apply repeat_length)) as (_ & Hdot & _).
  destruct (Hdot Lo) as (Eq & _). rewrite Eq. cbn [Base.bind].
  rewrite (@aget_nth _ _ cid z ltac:(rewrite Ldet; exact Hc)). cbn [Base.bind]. rewrite (@aget_nth _ _ cid z ltac:(rewrite Lpk; exact Hc)). cbn [Base.bind].
  unfold wform, ghalf, enum_M. f_equal. f_equal. f_equal. f_equal. apply bigsum_ext. intros c Hc'. rewrite (Hy c Hc'), (Ho c Hc'). f_equal.
  apply bigsum_ext. intros r Hr'. rewrite (Ho r Hr'). reflexivity.
Qed.

(** ** One row *)
Definition wval (s : gst N) (w : worker N) row cid : T :=
  wform N log2 two_pi d (Base.row data d (w_start w + row)) (Base.row (gm_mu s) d row) (nth cid (gm_inv s) []) (nth cid (gm_dets s) z) (nth cid (gm_Pk s) z).
Definition wtot (s : gst N) (w : worker N) row (px : T) : T := fold_left (nadd N) (map (wval s w row) (seq 0 k)) px.

Definition sameg (s s' : gst N) : Prop :=
  gm_mu s' = gm_mu s /\ gm_sigma s' = gm_sigma s /\ gm_inv s' = gm_inv s /\ gm_Pk s' = gm_Pk s /\ gm_dets s' = gm_dets s.

Lemma estep_row_ok (w : worker N) (s : gst N) row : In w ws -> row < w_nrow w -> row < k -> gshape g s ->
  exists s', estep_row log2 two_pi g w row s = Ok s' /\ sameg s s' /\ gshape g s' /\
    (forall c, c < k -> nth (row * k + c) (gm_P s') z = ndiv N (wval s w row c) (wtot s w row (nth (w_start w + row) (gm_Px s) z))) /\
    (forall i, i < row * k \/ (row + 1) * k <= i -> nth i (gm_P s') z = nth i (gm_P s) z) /\
    (forall q, nth q (gm_Px s') z = if q =? w_start w + row then wtot s w row (nth (w_start w + row) (gm_Px s) z) else nth q (gm_Px s) z).
Proof.
  intros Hw Hr Hrk Sh.
  assert (Htr : w_start w + row < g_nrow g).
  { pose proof (wend w Hw). lia. }
  assert (Hrn : row < g_nrow g) by lia.
  set (tr := w_start w + row) in *. set (px0 := nth tr (gm_Px s) z).
  set (Inv1 := fun (m : nat) (t : gst N) => sameg s t /\ gshape g t /\
      (forall c, c < m -> nth (row * k + c) (gm_P t) z = wval s w row c) /\
      (forall i, i < row * k \/ row * k + m <= i -> nth i (gm_P t) z = nth i (gm_P s) z) /\
      (forall q, nth q (gm_Px t) z = if q =? tr then fold_left (nadd N) (map (wval s w row) (seq 0 m)) px0 else nth q (gm_Px s) z)).
  assert (H1 : okp (loop k (fun cid t => let* tmp := weight log2 two_pi g w t row cid in
      let* Px := amod (gm_Px t) tr (fun x => nadd N x tmp) in
      let* P := aset (gm_P t) (row * k + cid) tmp in Ok (with_P t P Px)) s) (Inv1 k)).
  { apply (loop_okp Inv1).
    - unfold Inv1. split; [unfold sameg; auto|]. split; [exact Sh|]. split; [intros; lia|]. split; [auto|].
      intros q. cbn [seq map fold_left]. destruct (Nat.eqb_spec q tr) as [->|]; reflexivity.
    - intros c t Hc (Sa & Sht & P1 & P2 & P3). destruct Sa as (S1 & S2 & S3 & S4 & S5).
      assert (Ew : weight log2 two_pi g w t row c = Ok (wval s w row c)).
      { rewrite (@weight_ok w t row c Hw Hr Hrk Hc Sht). unfold wval. rewrite S1, S3, S4, S5. reflexivity. }
      rewrite Ew. cbn [Base.bind]. destruct Sht as (L1 & L2 & L3 & L4 & L5 & L6 & L7). fold k in L6.
      rewrite (@amod_nth _ (gm_Px t) tr _ z) by lia. cbn [Base.bind].
      assert (Hi : row * k + c < length (gm_P t)) by (rewrite L6; nia).
      rewrite aset_ok by exact Hi. cbn [Base.bind okp]. unfold Inv1, with_P, sameg, gshape. cbn [gm_mu gm_sigma gm_inv gm_P gm_Pk gm_dets gm_Px].
      fold k. rewrite !upd_length. split; [auto|]. split; [repeat split; auto|]. split; [|split].
      + intros c' Hc'. rewrite nth_upd by exact Hi. destruct (Nat.eqb_spec (row * k + c') (row * k + c)) as [E|Hne]; [replace c' with c by lia; reflexivity|apply P1; lia].
      + intros i Hi'. rewrite nth_upd by exact Hi. destruct (Nat.eqb_spec i (row * k + c)) as [E|Hne]; [lia|apply P2; lia].
      + intros q. rewrite nth_upd by lia. rewrite seq_S, map_app, fold_left_app. cbn [Nat.add map fold_left].
        destruct (Nat.eqb_spec q tr) as [->|Hne]; [rewrite (P3 tr), Nat.eqb_refl; reflexivity|]. rewrite (P3 q). destruct (Nat.eqb_spec q tr); [contradiction|reflexivity]. }
  unfold estep_row. fold tr. fold k. destruct (loop k _ s) as [s1|] eqn:E1; [|destruct H1]. cbn [okp] in H1. cbn [Base.bind]. clear E1.
  destruct H1 as (Sa & Sh1 & P1 & P2 & P3).
  set (tot := wtot s w row px0). 
  assert (Ptr : nth tr (gm_Px s1) z = tot) by (rewrite (P3 tr), Nat.eqb_refl; reflexivity).
  set (Inv2 := fun (m : nat) (t : gst N) => sameg s1 t /\ gshape g t /\ gm_Px t = gm_Px s1 /\
      (forall i, nth i (gm_P t) z = if (row * k <=? i) && (i <? row * k + m) then ndiv N (nth i (gm_P s1) z) tot else nth i (gm_P s1) z)).
  assert (H2 : okp (loop k (fun cid t => let* px := aget (gm_Px t) tr in
      let* P := amod (gm_P t) (row * k + cid) (fun x => ndiv N x px) in Ok (with_P t P (gm_Px t))) s1) (Inv2 k)).
  { apply (loop_okp Inv2).
    - unfold Inv2, sameg. split; [auto|]. split; [exact Sh1|]. split; [reflexivity|]. intros i.
      destruct (Nat.leb_spec (row * k) i); cbn [andb]; [|reflexivity]. destruct (Nat.ltb_spec i (row * k + 0)); [lia|reflexivity].
    - intros c t Hc (Sa' & Sht & Px' & P'). rewrite Px'. pose proof Sht as (L1 & L2 & L3 & L4 & L5 & L6 & L7). fold k in L6.
      rewrite (@aget_nth _ _ tr z) by (destruct Sh1 as (_ & _ & _ & _ & _ & _ & L); lia). cbn [Base.bind].
      assert (Hi : row * k + c < length (gm_P t)) by (rewrite L6; nia).
      rewrite (@amod_nth _ (gm_P t) (row * k + c) _ z) by exact Hi. cbn [Base.bind okp].
      unfold Inv2, with_P, sameg, gshape. cbn [gm_mu gm_sigma gm_inv gm_P gm_Pk gm_dets gm_Px]. fold k. rewrite !upd_length.
      destruct Sa' as (T1 & T2 & T3 & T4 & T5). split; [auto|]. rewrite <- Px'. split; [repeat split; auto|]. split; [reflexivity|].
      intros i. rewrite nth_upd by exact Hi. rewrite Px', Ptr, !P'. destruct (Nat.eqb_spec i (row * k + c)) as [->|Hne].
      + destruct (Nat.leb_spec (row * k) (row * k + c)); [|lia]. destruct (Nat.ltb_spec (row * k + c) (row * k + c)); [lia|].
        destruct (Nat.ltb_spec (row * k + c) (row * k + S c)); [|lia]. reflexivity.
      + destruct (Nat.leb_spec (row * k) i); cbn [andb]; [|reflexivity].
        destruct (Nat.ltb_spec i (row * k + c)); destruct (Nat.ltb_spec i (row * k + S c)); try lia; reflexivity. }
  destruct (loop k _ s1) as [s2|] eqn:E2; [|destruct H2]. cbn [okp] in H2. clear E2. destruct H2 as (Sa2 & Sh2 & Px2 & P').
  exists s2. split; [reflexivity|]. split; [|split; [exact Sh2|split; [|split]]].
  - destruct Sa as (A1 & A2 & A3 & A4 & A5), Sa2 as (B1 & B2 & B3 & B4 & B5). unfold sameg. repeat split; congruence.
  - intros c Hc. rewrite (P' (row * k + c)), (P1 c Hc). destruct (Nat.leb_spec (row * k) (row * k + c)); [|lia].
    destruct (Nat.ltb_spec (row * k + c) (row * k + k)); [reflexivity|lia].
  - intros i Hi. rewrite P'. destruct (Nat.leb_spec (row * k) i); destruct (Nat.ltb_spec i (row * k + k)); cbn [andb]; try (apply P2; lia). lia.
  - intros q. rewrite Px2. apply P3.
Qed.

End W.

(** ** The E step over the rows *)
Section E.
Variables (N : Num) (log2 : car N -> car N) (two_pi : car N).
Notation T := (car N).
Notation z := (nzero N).

Lemma estep_row_same (g : kcfg N) w row s s' : estep_row log2 two_pi g w row s = Ok s' ->
  sameg s s' /\ length (gm_P s') = length (gm_P s) /\ forall i, i < row * g_k g \/ (row + 1) * g_k g <= i -> nth_error (gm_P s') i = nth_error (gm_P s) i.
Proof.
  unfold estep_row. intros H. apply bind_ok in H as (s1 & H1 & H2).
  set (Q := fun t : gst N => sameg s t /\ length (gm_P t) = length (gm_P s) /\ forall i, i < row * g_k g \/ (row + 1) * g_k g <= i -> nth_error (gm_P t) i = nth_error (gm_P s) i).
  assert (Q1 : Q s1).
  { apply (@loop_inv_ok _ (fun _ => Q) _ _ _ _ H1).
    - unfold Q, sameg. splits; auto.
    - intros c a b Hc (A1 & A2 & A3) E. apply bind_ok in E as (x & _ & E). apply bind_ok in E as (px & _ & E). apply bind_ok in E as (P & E & E').
      injection E' as <-. apply aset_inv in E as (Hl & ->). unfold Q, sameg in *. cbn [with_P gm_mu gm_sigma gm_inv gm_P gm_Pk gm_dets]. rewrite upd_length. split; [exact A1|]. split; [exact A2|].
      intros i Hi. rewrite nth_error_upd. destruct (Nat.eqb_spec i (row * g_k g + c)); [lia|auto]. }
  apply (@loop_inv_ok _ (fun _ => Q) _ _ _ _ H2).
  - exact Q1.
  - intros c a b Hc (A1 & A2 & A3) E. apply bind_ok in E as (x & _ & E). apply bind_ok in E as (P & E & E').
    injection E' as <-. apply amod_inv in E as (v & _ & ->). unfold Q, sameg in *. cbn [with_P gm_mu gm_sigma gm_inv gm_P gm_Pk gm_dets]. rewrite upd_length. split; [exact A1|]. split; [exact A2|].
    intros i Hi. rewrite nth_error_upd. destruct (Nat.eqb_spec i (row * g_k g + c)); [lia|auto].
Qed.

(** a row whose local index is not below k reads past the end of the means *)
Lemma estep_row_oob (g : kcfg N) w row s : 1 <= g_k g -> 1 <= g_ncol g -> length (gm_mu s) = g_k g * g_ncol g -> g_k g <= row ->
  forall s', estep_row log2 two_pi g w row s <> Ok s'.
Proof.
  intros Hk Hc L Hr s' H. unfold estep_row in H. apply bind_ok in H as (s1 & H & _).
  destruct (g_k g) as [|k] eqn:Ek; [lia|]. unfold loop in H. cbn [for_] in H. apply bind_ok in H as (s2 & H & _).
  apply bind_ok in H as (v & H & _). unfold weight in H. apply bind_ok in H as (df & H & _). unfold vdiff in H.
  destruct (g_ncol g) as [|d] eqn:Ed; [lia|]. unfold loop in H. cbn [for_] in H. apply bind_ok in H as (o & H & _).
  apply bind_ok in H as (x & _ & H). apply bind_ok in H as (y & H & _). unfold pget in H. cbn [fst snd] in H. rewrite aget_err in H by nia. discriminate.
Qed.

Definition mu_ok (g : kcfg N) (s : gst N) : Prop := length (gm_mu s) = g_k g * g_ncol g.

Lemma estep_oob (g : kcfg N) ws : 1 <= g_k g -> 1 <= g_ncol g -> forall order s s', mu_ok g s ->
  estep log2 two_pi g ws order s = Ok s' -> forall t row, In (t, row) order -> row < g_k g.
Proof.
  intros Hk Hc. unfold estep. induction order as [|[t0 r0] order IH]; intros s s' Hm H t row Hin; [destruct Hin|].
  cbn [for_each fst snd] in H. apply bind_ok in H as (s1 & H1 & H). apply bind_ok in H1 as (w & _ & H1).
  destruct (estep_row_same _ _ _ _ H1) as ((Em & _) & _).
  assert (H0 : r0 < g_k g).
  { destruct (Nat.lt_ge_cases r0 (g_k g)) as [|Hge]; [assumption|]. exfalso. exact (@estep_row_oob g w r0 s Hk Hc Hm Hge s1 H1). }
  destruct Hin as [Q|Hin]; [injection Q as <- <-; exact H0|]. apply (IH s1 s' ltac:(unfold mu_ok in *; rewrite Em; exact Hm) H t row Hin).
Qed.

Lemma estep_frame (g : kcfg N) ws m : forall order s s', (forall t row, In (t, row) order -> row < m) ->
  estep log2 two_pi g ws order s = Ok s' -> sameg s s' /\ length (gm_P s') = length (gm_P s) /\
  forall i, m * g_k g <= i -> nth_error (gm_P s') i = nth_error (gm_P s) i.
Proof.
  unfold estep. induction order as [|[t0 r0] order IH]; intros s s' Ho H.
  - cbn in H. injection H as <-. unfold sameg. splits; auto.
  - cbn [for_each fst snd] in H. apply bind_ok in H as (s1 & H1 & H). apply bind_ok in H1 as (w & _ & H1).
    destruct (estep_row_same _ _ _ _ H1) as (A1 & A2 & A3).
    destruct (IH s1 s' (fun t row Hin => Ho t row (or_intror Hin)) H) as (B1 & B2 & B3).
    pose proof (Ho t0 r0 (or_introl eq_refl)). splits.
    + unfold sameg in *. destruct A1 as (C1 & C2 & C3 & C4 & C5), B1 as (D1 & D2 & D3 & D4 & D5). repeat split; congruence.
    + congruence.
    + intros i Hi. rewrite B3 by exact Hi. apply A3. right. nia.
Qed.

(** every row of the order in bounds: the step completes *)
Lemma estep_ok (g : kcfg N) data ws : wok (g_nrow g) (g_ncol g) data ws -> length data = g_nrow g * g_ncol g ->
  forall order s, (forall t row, In (t, row) order -> row < g_k g /\ exists w, nth_error ws t = Some w /\ row < w_nrow w) -> gshape g s ->
  exists s', estep log2 two_pi g ws order s = Ok s' /\ gshape g s'.
Proof.
  intros W Hd. unfold estep. induction order as [|[t0 r0] order IH]; intros s Ho Sh.
  - exists s. split; [reflexivity|exact Sh].
  - cbn [for_each fst snd]. destruct (Ho t0 r0 (or_introl eq_refl)) as (Hk & w & Ew & Hr).
    apply aget_ok in Ew as Ea. rewrite Ea. cbn [Base.bind].
    destruct (@estep_row_ok N log2 two_pi g data ws W Hd w s r0 (nth_error_In _ _ Ew) Hr Hk Sh) as (s1 & E1 & _ & Sh1 & _).
    rewrite E1. cbn [Base.bind]. apply IH; [|exact Sh1]. intros t row Hin. apply Ho. right. exact Hin.
Qed.

End E.

(** ** C65 *)

(** The mean of the row's own index is read, not the component's: with more rows
    in a worker than components the read is out of bounds, whatever the data. *)
Theorem C65_mean_refuted : forall N log2 two_pi (g : kcfg N) ws order s s' t row,
  1 <= g_k g -> 1 <= g_ncol g -> length (gm_mu s) = g_k g * g_ncol g ->
  In (t, row) order -> g_k g <= row -> estep log2 two_pi g ws order s <> Ok s'.
Proof.
  intros N log2 two_pi g ws order s s' t row Hk Hc L Hin Hr H. pose proof (@estep_oob N log2 two_pi g ws Hk Hc order s s' L H t row Hin). lia.
Qed.

(** Responsibilities are stored at the worker's local row: the entries of every
    row past the longest worker are never written. *)
Theorem C65_position_refuted : forall N log2 two_pi (g : kcfg N) ws order s s' m,
  (forall t row, In (t, row) order -> row < m) -> estep log2 two_pi g ws order s = Ok s' ->
  forall r c, m <= r -> nth_error (gm_P s') (r * g_k g + c) = nth_error (gm_P s) (r * g_k g + c).
Proof.
  intros N log2 two_pi g ws order s s' m Ho H r c Hr. apply (@estep_frame N log2 two_pi g ws m order s s' Ho H). nia.
Qed.

(** One worker, at most k rows, exact arithmetic: the values are exactly the
    quotients of the weights, and every row whose total is not zero sums to one. *)
Section OneWorker.
Local Open Scope R_scope.
Variables (log2 : R -> R) (two_pi : R).

Lemma rsum_fold (l : list R) : forall a, fold_left Rplus l a = a + rsum l.
Proof. induction l as [|x l IH]; intros a; cbn [fold_left rsum]; [lra|rewrite IH; lra]. Qed.

Lemma estep_one (g : kcfg NumR) (data : list (car NumR)) (w : worker NumR) (s : gst NumR) : wok (g_nrow g) (g_ncol g) data [w] -> length data = (g_nrow g * g_ncol g)%nat -> gshape g s ->
  (forall q, nth q (gm_Px s) 0 = 0) -> forall n, (n <= w_nrow w)%nat -> (n <= g_k g)%nat ->
  let q r c := wform NumR log2 two_pi (g_ncol g) (row data (g_ncol g) r) (row (gm_mu s) (g_ncol g) r) (nth c (gm_inv s) []) (nth c (gm_dets s) 0) (nth c (gm_Pk s) 0) in
  exists s', @estep NumR log2 two_pi g [w] (map (fun r => (0%nat, r)) (seq 0 n)) s = Ok s' /\ gshape g s' /\ sameg s s' /\
    (forall r c, (r < n)%nat -> (c < g_k g)%nat -> nth (r * g_k g + c) (gm_P s') 0 = q r c / rsum (map (q r) (seq 0 (g_k g)))) /\
    (forall r, (n <= r)%nat -> nth r (gm_Px s') 0 = 0).
Proof.
  intros W Hd Sh HPx. assert (Hw0 : w_start w = 0%nat) by (destruct W as (Ht & _); cbn [w_ranges map ntiles] in Ht; lia).
  induction n as [|n IH]; intros Hn Hk.
  - intros q. exists s. splits; [reflexivity|exact Sh|unfold sameg; auto|lia|auto].
  - destruct IH as (s1 & E1 & Sh1 & Sa & HP & Hx); [lia|lia|]. intros q.
    destruct (@estep_row_ok NumR log2 two_pi g data [w] W Hd w s1 n (or_introl eq_refl) ltac:(lia) ltac:(lia) Sh1) as (s2 & E2 & Sa2 & Sh2 & P1 & P2 & P3).
    assert (Ewv : forall c, @wval NumR log2 two_pi g data s1 w n c = q n c).
    { intros c. destruct Sa as (A1 & A2 & A3 & A4 & A5). unfold wval, q. rewrite A1, A3, A4, A5, Hw0. reflexivity. }
    exists s2. splits.
    + unfold estep. rewrite seq_S, map_app. unfold estep in E1. 
      assert (Gf : forall (A St : Type) (b : A -> St -> res St) l1 l2 (x : St), for_each (l1 ++ l2) b x = Base.bind (for_each l1 b x) (for_each l2 b)).
      { clear. induction l1 as [|y l1 IH]; intros l2 x; cbn [app for_each]; [reflexivity|]. destruct (b y x); cbn [Base.bind]; [apply IH|reflexivity]. }
      rewrite Gf, E1. cbn [Base.bind map for_each fst snd aget nth_error Nat.add]. rewrite E2. reflexivity.
    + exact Sh2.
    + unfold sameg in *. destruct Sa as (C1 & C2 & C3 & C4 & C5), Sa2 as (D1 & D2 & D3 & D4 & D5). repeat split; congruence.
    + intros r c Hr Hc. destruct (Nat.eq_dec r n) as [->|Hne].
      * etransitivity; [exact (P1 c Hc)|]. change (ndiv NumR) with Rdiv. f_equal; [apply Ewv|].
        f_equal. unfold wtot. etransitivity; [exact (rsum_fold _ _)|]. rewrite Hw0. cbn [Nat.add].
        etransitivity; [apply f_equal2; [exact (Hx n ltac:(lia))|reflexivity]|]. rewrite Rplus_0_l. f_equal. apply map_ext. exact Ewv.
      * etransitivity; [apply P2; left; nia|]. apply HP; [lia|exact Hc].
    + intros r Hr. etransitivity; [exact (P3 r)|]. rewrite Hw0. destruct (Nat.eqb_spec r (0 + n)); [lia|]. apply Hx. lia.
Qed.

Theorem C65_rows_sum_partial : forall (g : kcfg NumR) (data : list (car NumR)) (w : worker NumR) (s : gst NumR),
  wok (g_nrow g) (g_ncol g) data [w] -> length data = (g_nrow g * g_ncol g)%nat -> gshape g s -> (g_nrow g <= g_k g)%nat ->
  (forall r, nth r (gm_Px s) 0 = 0) ->
  let q r c := wform NumR log2 two_pi (g_ncol g) (row data (g_ncol g) r) (row (gm_mu s) (g_ncol g) r) (nth c (gm_inv s) []) (nth c (gm_dets s) 0) (nth c (gm_Pk s) 0) in
  exists s', @estep NumR log2 two_pi g [w] (map (fun r => (0%nat, r)) (seq 0 (g_nrow g))) s = Ok s' /\
    forall r, (r < g_nrow g)%nat ->
      (forall c, (c < g_k g)%nat -> nth (r * g_k g + c) (gm_P s') 0 = q r c / rsum (map (q r) (seq 0 (g_k g)))) /\
      (rsum (map (q r) (seq 0 (g_k g))) <> 0 -> rsum (row (gm_P s') (g_k g) r) = 1).
Proof.
  intros g data w s W Hd Sh Hk HPx q.
  assert (Hwn : w_nrow w = g_nrow g) by (destruct W as (Ht & _); cbn [w_ranges map ntiles] in Ht; lia).
  destruct (@estep_one g data w s W Hd Sh HPx (g_nrow g) ltac:(lia) Hk) as (s' & E & Sh' & _ & HP & _).
  exists s'. split; [exact E|]. intros r Hr. split; [intros c Hc; apply HP; auto|]. intros Hne.
  assert (Er : row (gm_P s') (g_k g) r = map (fun c => q r c / rsum (map (q r) (seq 0 (g_k g)))) (seq 0 (g_k g))).
  { assert (Lr : length (row (gm_P s') (g_k g) r) = g_k g) by (apply row_length with (n := g_nrow g); [apply Sh'|exact Hr]).
    apply nth_ext with (d := 0) (d' := 0); [rewrite map_length, seq_length; exact Lr|]. intros i Hi.
    assert (Hi' : (i < g_k g)%nat) by (rewrite <- Lr; exact Hi).
    etransitivity; [unfold row; apply nth_slice; exact Hi'|]. etransitivity; [apply HP; auto|].
    symmetry. apply nth_error_nth. rewrite nth_error_map, (nth_error_nth' (seq 0 (g_k g)) 0%nat) by (rewrite seq_length; exact Hi').
    rewrite seq_nth by exact Hi'. reflexivity. }
  rewrite Er.
  assert (G : forall tot l, rsum (map (fun c => q r c / tot) l) = rsum (map (q r) l) / tot).
  { intros tot. induction l as [|x l IH]; cbn [map rsum]; [unfold Rdiv; lra|]. rewrite IH. unfold Rdiv. lra. }
  rewrite G. apply Rinv_r. exact Hne.
Qed.
End OneWorker.

(** Responsibilities can be negative: one row at the common mean 0 of two
    components with variances 1 and 2^100 and equal weights. *)
Section Negative.
Local Open Scope R_scope.
Definition rlog2 (x : R) : R := ln x / ln 2.

Lemma ln2_pos : 0 < ln 2.
Proof. rewrite <- ln_1. apply ln_increasing; lra. Qed.
Lemma log2_pow n : rlog2 (2 ^ n) = INR n.
Proof. unfold rlog2. rewrite ln_pow by lra. field. pose proof ln2_pos. lra. Qed.
Lemma log2_2pi : 2 < rlog2 (2 * PI) <= 3.
Proof.
  pose proof PI2_3_2 as H1. pose proof PI_4 as H2. assert (H3 : 3 < PI) by lra.
  pose proof ln2_pos as H4. split.
  - replace 2 with (rlog2 (2 ^ 2)) at 1 by (rewrite log2_pow; cbn; lra). unfold rlog2, Rdiv. apply Rmult_lt_compat_r; [apply Rinv_0_lt_compat; exact H4|].
    apply ln_increasing; lra.
  - replace 3 with (rlog2 (2 ^ 3)) by (rewrite log2_pow; cbn; lra). unfold rlog2, Rdiv. apply Rmult_le_compat_r; [left; apply Rinv_0_lt_compat; exact H4|].
    destruct (Req_dec (2 * PI) (2 ^ 3)) as [E|E]; [rewrite E; lra|]. left. apply ln_increasing; lra.
Qed.

Definition ng : kcfg NumR := mkCfg NumR 1 1 2 1 1 (-1) EUCL UserBuffer.
Definition nw : worker NumR := mkWorker NumR 0 1 (([0] : list R), 0%nat).
(** the state of the driver for these components: inverses and determinants of the covariances *)
Definition nst : gst NumR := mkG NumR ([0; 0] : list R) [[1]; [2 ^ 100]] [[1]; [/ 2 ^ 100]] [0; 0] [1 / 2; 1 / 2] [1; 2 ^ 100] [0].

Theorem C65_negative_refuted : exists s', @estep NumR rlog2 (2 * PI) ng [nw] [(0%nat, 0%nat)] nst = Ok s' /\ nth 0 (gm_P s') 0 < 0.
Proof.
  destruct (@C65_rows_sum_partial rlog2 (2 * PI) ng [0] nw nst) as (s' & E & H).
  - split; [cbn; lia|]. intros w r [<-|[]] Hr. cbn in Hr. replace r with 0%nat by lia. reflexivity.
  - reflexivity.
  - unfold gshape. cbn. splits; auto. intros m [<-|[<-|[]]]; reflexivity.
  - cbn. lia.
  - intros [|[|r]]; reflexivity.
  - exists s'. split; [exact E|]. destruct (H 0%nat ltac:(cbn; lia)) as (Hv & _). specialize (Hv 0%nat ltac:(cbn; lia)).
    cbn [Nat.mul Nat.add] in Hv. rewrite Hv. clear.
    assert (Q0 : forall inv det, wform NumR rlog2 (2 * PI) 1 [0] [0] [inv] det (1 / 2) = (- (5 / 2 * rlog2 (2 * PI) - rlog2 det / 2)) / 2).
    { intros inv det. unfold wform. cbn [bigsum NumR nzero none nadd nsub nmul ndiv nofZ nth Nat.mul Nat.add]. match goal with |- ?u = ?v => change (@eq R u v) end. field. }
    change (g_k ng) with 2%nat. change (g_ncol ng) with 1%nat. cbn [seq map rsum].
    change (row [0] 1 0) with ([0] : list R). change (row (gm_mu nst) 1 0) with ([0] : list R).
    cbn [nst gm_inv gm_dets gm_Pk nth]. rewrite !Q0. replace (rlog2 1) with 0 by (unfold rlog2; rewrite ln_1; unfold Rdiv; lra). rewrite log2_pow.
    replace (INR 100) with 100 by (rewrite INR_IZR_INZ; reflexivity). pose proof log2_2pi as HL. revert HL. generalize (rlog2 (2 * PI)). intros L HL.
    unfold Rdiv at 1. apply Ropp_lt_cancel. rewrite Ropp_0, Ropp_mult_distr_l. apply Rmult_lt_0_compat; [lra|]. apply Rinv_0_lt_compat. lra.
Qed.
Print Assumptions C65_negative_refuted.
End Negative.

(** IEEE arithmetic: in the first E step the inverse covariances and determinants
    are still zero (they are computed after it), log2(0) is -infinity, and every
    responsibility the step writes is NaN. *)
Section NaN.
Variable log2 : F64 -> F64.
Variable two_pi : F64.
Hypothesis Hlog : log2 (S754_zero false) = S754_infinity true.

Definition zn (x : F64) : Prop := x = S754_nan \/ exists b, x = S754_zero b.
Definition bad (x : F64) : Prop := x = S754_nan \/ x = S754_infinity true.
(** not negative *)
Definition nonneg (x : F64) : Prop := match x with S754_infinity true | S754_finite true _ _ => False | _ => True end.

Lemma zn_mul_r x y : zn y -> zn (nmul NumF x y).
Proof. intros [->|(b & ->)]; destruct x as [sx|sx| |sx mx ex]; cbn; unfold zn; eauto. Qed.
Lemma zn_mul_l x y : zn x -> zn (nmul NumF x y).
Proof. intros [->|(b & ->)]; destruct y as [sx|sx| |sx mx ex]; cbn; unfold zn; eauto. Qed.
Lemma zn_add x y : zn x -> zn y -> zn (nadd NumF x y).
Proof. intros [->|(b & ->)] [->|(b' & ->)]; cbn; unfold zn; eauto. destruct b, b'; cbn; eauto. Qed.
Lemma zn_sum n f : (forall i, i < n -> zn (f i)) -> zn (bigsum NumF n f).
Proof. induction n as [|n IH]; intros H; cbn [bigsum]; [right; exists false; reflexivity|]. apply zn_add; [apply IH; intros; apply H; lia|apply H; lia]. Qed.

Lemma wform_bad d x mu inv pk : (forall i, zn (nth i inv (S754_zero false))) -> nonneg pk -> bad (wform NumF log2 two_pi d x mu inv (S754_zero false) pk).
Proof.
  intros Hi Hp. unfold wform.
  match goal with |- bad (nmul NumF (nsub NumF (nmul NumF ?h ?q) (nsub NumF ?c ?l)) pk) => assert (Hq : zn (nmul NumF h q)); [|generalize dependent (nmul NumF h q); generalize c; assert (El : l = S754_infinity true); [|rewrite El; clear El]] end.
  - apply zn_mul_r. apply zn_sum. intros c Hc. apply zn_mul_l. apply zn_sum. intros r Hr. apply zn_mul_r. apply Hi.
  - rewrite Hlog. vm_compute. reflexivity.
  - intros c q Hq. assert (B : bad (nsub NumF q (nsub NumF c (S754_infinity true)))).
    { destruct Hq as [->|(b & ->)]; destruct c as [sx|sx| |sx mx ex]; cbn; unfold bad; auto; destruct sx; cbn; auto. }
    destruct B as [-> | ->]; destruct pk as [sx|sx| |sx mx ex]; cbn; unfold bad; auto; destruct sx; cbn in *; auto; tauto.
Qed.

Lemma bad_add x y : (x = S754_zero false \/ bad x) -> bad y -> bad (nadd NumF x y).
Proof. intros [ -> | [ -> | -> ] ] [ -> | -> ]; cbn; unfold bad; auto. Qed.
Lemma bad_fold l : forall x, (x = S754_zero false \/ bad x) -> (forall y, In y l -> bad y) -> l <> [] -> bad (fold_left (nadd NumF) l x).
Proof.
  induction l as [|y l IH]; intros x Hx Hl Hne; [congruence|]. cbn [fold_left].
  assert (B : bad (nadd NumF x y)) by (apply bad_add; [exact Hx|apply Hl; left; reflexivity]).
  destruct l as [|y' l]; [exact B|]. apply IH; [right; exact B|intros w Hw; apply Hl; right; exact Hw|discriminate].
Qed.

(** a driver state before its first E step *)
Definition fresh_state (s : gst NumF) : Prop :=
  (forall m x, In m (gm_inv s) -> In x m -> x = S754_zero false) /\ (forall x, In x (gm_dets s) -> x = S754_zero false) /\
  (forall x, In x (gm_Pk s) -> nonneg x) /\ (forall x, In x (gm_Px s) -> x = S754_zero false).

Lemma first_estep (g : kcfg NumF) data ws : wok (g_nrow g) (g_ncol g) data ws -> length data = g_nrow g * g_ncol g -> 1 <= g_k g ->
  forall order s s', (forall t row, In (t, row) order -> row < g_k g /\ exists w, nth_error ws t = Some w /\ row < w_nrow w) -> gshape g s ->
  (forall m x, In m (gm_inv s) -> In x m -> x = S754_zero false) -> (forall x, In x (gm_dets s) -> x = S754_zero false) -> (forall x, In x (gm_Pk s) -> nonneg x) ->
  (forall q, q < g_nrow g -> nth q (gm_Px s) (S754_zero false) = S754_zero false \/ bad (nth q (gm_Px s) (S754_zero false))) ->
  @estep NumF log2 two_pi g ws order s = Ok s' ->
  (forall i, nth i (gm_P s) (S754_zero false) = S754_nan -> nth i (gm_P s') (S754_zero false) = S754_nan) /\
  forall t row c, In (t, row) order -> c < g_k g -> nth (row * g_k g + c) (gm_P s') (S754_zero false) = S754_nan.
Proof.
  intros W Hd Hk1. unfold estep. induction order as [|[t0 r0] order IH]; intros s s' Ho Sh Hi Hdt Hpk Hpx H.
  - cbn in H. injection H as <-. split; [auto|]. intros t row c [].
  - cbn [for_each fst snd] in H. apply bind_ok in H as (s1 & H1 & H). apply bind_ok in H1 as (w & Ew & H1). apply aget_ok in Ew.
    destruct (Ho t0 r0 (or_introl eq_refl)) as (Hk & w' & Ew' & Hr). assert (w' = w) by congruence. subst w'.
    destruct (@estep_row_ok NumF log2 two_pi g data ws W Hd w s r0 (nth_error_In _ _ Ew) Hr Hk Sh) as (s2 & E2 & Sa & Sh1 & P1 & P2 & P3).
    assert (Q := eq_trans (eq_sym E2) H1). injection Q as <-. clear E2.
    change (nzero NumF) with (S754_zero false) in *.
    assert (Hv : forall c, c < g_k g -> bad (@wval NumF log2 two_pi g data s w r0 c)).
    { intros c Hc. unfold wval. destruct Sh as (L1 & L2 & L3 & L4 & L5 & _).
      replace (nth c (gm_dets s) (nzero NumF)) with (S754_zero false) by (symmetry; apply Hdt; apply nth_In; exact (eq_ind_r (fun x => c < x) Hc L4)).
      apply wform_bad.
      - intros i. right. exists false. destruct (Nat.lt_ge_cases i (length (nth c (gm_inv s) []))) as [Hl|Hl]; [|apply nth_overflow; exact Hl].
        eapply Hi; [|apply nth_In; exact Hl]. apply nth_In. exact (eq_ind_r (fun x => c < x) Hc L2).
      - apply Hpk. apply nth_In. exact (eq_ind_r (fun x => c < x) Hc L5). }
    assert (Hw : bad (@wtot NumF log2 two_pi g data s w r0 (nth (w_start w + r0) (gm_Px s) (S754_zero false)))).
    { unfold wtot. apply bad_fold.
      - apply Hpx. pose proof (@wend NumF g data ws W w (nth_error_In _ _ Ew)). lia.
      - intros y Hy. apply in_map_iff in Hy as (c & <- & Hc). apply in_seq in Hc. apply Hv. lia.
      - destruct (g_k g); [lia|discriminate]. }
    assert (Hn : forall c, c < g_k g -> nth (r0 * g_k g + c) (gm_P s2) (S754_zero false) = S754_nan).
    { intros c Hc. etransitivity; [exact (P1 c Hc)|]. destruct (Hv c Hc) as [E|E], Hw as [E'|E']; rewrite E, E'; reflexivity. }
    destruct Sa as (A1 & A2 & A3 & A4 & A5).
    destruct (IH s2 s') as (I1 & I2); auto.
    + intros t row Hin. apply Ho. right. exact Hin.
    + rewrite A3. exact Hi.
    + rewrite A5. exact Hdt.
    + rewrite A4. exact Hpk.
    + intros q Hq. pose proof (P3 q) as P3q. change (nzero NumF) with (S754_zero false) in P3q. rewrite P3q. destruct (q =? w_start w + r0); [right; exact Hw|apply Hpx; exact Hq].
    + split.
      * intros i Hi'. apply I1. destruct (Nat.lt_ge_cases i (r0 * g_k g)) as [Hl|Hl]; [rewrite <- Hi'; apply P2; lia|].
        destruct (Nat.lt_ge_cases i ((r0 + 1) * g_k g)) as [Hl2|Hl2]; [|rewrite <- Hi'; apply P2; lia].
        replace i with (r0 * g_k g + (i - r0 * g_k g)) by lia. apply Hn. lia.
      * intros t row c Hin Hc. destruct Hin as [Q|Hin]; [injection Q as <- <-; apply I1, Hn; exact Hc|apply (I2 t row c Hin Hc)].
Qed.

Theorem C65_nan_refuted : forall (g : kcfg NumF) data ws order s s',
  wok (g_nrow g) (g_ncol g) data ws -> length data = g_nrow g * g_ncol g -> 1 <= g_k g -> gshape g s -> fresh_state s ->
  (forall t row, In (t, row) order -> row < g_k g /\ exists w, nth_error ws t = Some w /\ row < w_nrow w) ->
  @estep NumF log2 two_pi g ws order s = Ok s' ->
  forall t row c, In (t, row) order -> c < g_k g -> nth (row * g_k g + c) (gm_P s') (S754_zero false) = S754_nan.
Proof.
  intros g data ws order s s' W Hd Hk Sh (F1 & F2 & F3 & F4) Ho H.
  refine (proj2 (@first_estep g data ws W Hd Hk order s s' Ho Sh F1 F2 F3 _ H)).
  intros q Hq. left. apply F4, nth_In. destruct Sh as (_ & _ & _ & _ & _ & _ & L). rewrite L. exact Hq.
Qed.
End NaN.
Print Assumptions C65_nan_refuted.

(** ** Whole runs *)
Section Run.
Variables (N : Num) (log2 : car N -> car N) (two_pi : car N).
Notation T := (car N).
Notation z := (nzero N).

(** ** C98: the run returns a model *)

(** The executable (not compiled for a binding) exits after the initialisation,
    on every input. *)
Theorem C98_exit_refuted : forall keep (g : kcfg N) mu it data d orders r, soft_run log2 two_pi false keep g mu it data d orders <> Ok r.
Proof.
  intros keep g mu it data d orders r H. unfold soft_run in H. apply bind_ok in H as (s & _ & H). apply bind_ok in H as (ws & _ & H). apply bind_ok in H as (s1 & _ & H).
  discriminate.
Qed.

(** kmeans++ initialisation ends the program in every build. *)
Theorem C98_kmeanspp_refuted : forall b keep (g : kcfg N) data d orders r, soft_run log2 two_pi b keep g None PLUSPLUS data d orders <> Ok r.
Proof.
  intros b keep g data d orders r H. unfold soft_run in H. apply bind_ok in H as (s & _ & H). apply bind_ok in H as (ws & _ & H). apply bind_ok in H as (s1 & H & _).
  discriminate.
Qed.

Lemma g_init_sizes (g : kcfg N) it ws data d s s' : g_init g it ws data d s = Ok s' -> length (gm_mu s') = length (gm_mu s).
Proof.
  assert (F : forall s', g_forgy g ws data d s = Ok s' -> length (gm_mu s') = length (gm_mu s)).
  { clear s'. intros s' H. unfold g_forgy in H. apply bind_ok in H as (mu & H & E). injection E as <-. cbn [gm_mu].
    apply (@loop_inv_ok _ (fun _ m => length m = length (gm_mu s)) _ _ _ _ H); [reflexivity|].
    intros c a b Hc Ha E. apply bind_ok in E as (p & _ & E). rewrite <- Ha. unfold copy_to in E.
    apply (@loop_inv_ok _ (fun _ m => length m = length a) _ _ _ _ E); [reflexivity|]. intros j m m' _ Hm E'. apply bind_ok in E' as (x & _ & E').
    apply aset_inv in E' as (_ & ->). rewrite upd_length. exact Hm. }
  destruct it; cbn [g_init]; intros H.
  - apply bind_ok in H as (s1 & H1 & H). apply bind_ok in H as (a & _ & H). apply bind_ok in H as (b & _ & H). apply bind_ok in H as (c & _ & H). injection H as <-. cbn [gm_mu]. auto.
  - auto.
  - discriminate.
  - injection H as <-. reflexivity.
Qed.

Lemma copy_to_length {A} (src : ptr A) n dst off r : copy_to src n dst off = Ok r -> length r = length dst.
Proof.
  unfold copy_to. intros E. apply (@loop_inv_ok _ (fun _ m => length m = length dst) _ _ _ _ E); [reflexivity|].
  intros j m m' _ Hm E'. apply bind_ok in E' as (x & _ & E'). apply aset_inv in E' as (_ & ->). rewrite upd_length. exact Hm.
Qed.

Lemma gmm_create_sizes (g : kcfg N) mu s : gmm_create g mu = Ok s ->
  gshape g s /\ (forall m, In m (gm_sigma s) -> m = repeat z (g_ncol g * g_ncol g)) /\ length (gm_sigma s) = g_k g /\ gm_inv s = gm_sigma s /\
  gm_dets s = repeat z (g_k g) /\ gm_Pk s = repeat z (g_k g) /\ gm_P s = repeat z (g_nrow g * g_k g) /\ gm_Px s = repeat z (g_nrow g).
Proof.
  unfold gmm_create. intros H. apply bind_ok in H as (m & Hm & H). injection H as <-. unfold gshape. cbn [gm_mu gm_sigma gm_inv gm_P gm_Pk gm_dets gm_Px].
  rewrite !repeat_length. assert (Lm : length m = g_k g * g_ncol g).
  { destruct mu as [c|]; [apply copy_to_length in Hm; rewrite Hm; apply repeat_length|injection Hm as <-; apply repeat_length]. }
  split; [splits; auto; intros x Hx; apply repeat_spec in Hx; rewrite Hx; apply repeat_length|]. splits; auto. intros x Hx. apply repeat_spec in Hx. exact Hx.
Qed.

(** With at least one iteration: more columns than components, or a worker
    processing more rows than components, is an out-of-bounds access. *)
Theorem C98_bounds_refuted : forall b keep (g : kcfg N) mu it data d orders r,
  1 <= g_k g -> 1 <= g_nrow g -> 1 <= g_ncol g -> 1 <= g_max_iters g ->
  g_k g < g_ncol g \/ (exists t row, In (t, row) (orders 1) /\ g_k g <= row) ->
  soft_run log2 two_pi b keep g mu it data d orders <> Ok r.
Proof.
  intros b keep g mu it data d orders r Hk Hn Hc Hm Hbad H. unfold soft_run in H.
  apply bind_ok in H as (s & Es & H). apply bind_ok in H as (ws & _ & H). apply bind_ok in H as (s1 & Ei & H).
  destruct b; [|discriminate]. cbn [negb] in H. apply bind_ok in H as (x & H & _).
  destruct (g_max_iters g) as [|mi] eqn:Em; [lia|]. cbn [Nat.ltb Nat.leb g_loop] in H.
  apply bind_ok in H as (s2 & E2 & H). apply bind_ok in H as (s3 & E3 & _).
  destruct (gmm_create_sizes _ _ Es) as ((Lmu & _) & _). apply g_init_sizes in Ei.
  destruct Hbad as [Hck|(t & row & Hin & Hr)].
  - unfold g_update in E3. apply bind_ok in E3 as (u & E3 & _). destruct (g_nrow g) as [|n]; [lia|]. unfold loop at 1 in E3. cbn [for_] in E3.
    apply bind_ok in E3 as (u1 & E3 & _).
    assert (G : forall m st st', m <= g_ncol g -> length st = g_k g -> for_ m 0 (fun col sum => let* x := aget (gm_P s2) (0 * g_k g + col) in amod sum col (fun a => nadd N a x)) st = Ok st' -> m <= g_k g /\ length st' = g_k g).
    { induction m as [|m IH]; intros st st' Hm' Ls E; [cbn in E; injection E as <-; split; [lia|exact Ls]|].
      rewrite for_last in E. apply bind_ok in E as (st1 & E & E'). destruct (IH st st1 ltac:(lia) Ls E) as (I1 & I2).
      apply bind_ok in E' as (v & _ & E'). apply amod_inv in E' as (v' & Hv & ->). rewrite upd_length. split; [|exact I2].
      assert (Hlt : 0 + m < length st1) by (apply nth_error_Some; rewrite Hv; discriminate). lia. }
    destruct (G (g_ncol g) _ _ (le_n _) (repeat_length _ _) E3) as (Q & _). lia.
  - assert (Hmu : mu_ok g s1) by (unfold mu_ok; congruence). pose proof (@estep_oob N log2 two_pi g ws Hk Hc _ _ _ Hmu E2 t row Hin). lia.
Qed.

(** ** C99: iterating *)

(** Every run that completes with at least one iteration allowed stops after the
    first one and reports convergence. *)
Theorem C99_one_iteration_refuted : forall b keep (g : kcfg N) mu it data d orders conv out,
  1 <= g_max_iters g -> soft_run log2 two_pi b keep g mu it data d orders = Ok (conv, out) -> conv = true /\ go_iters out = 1.
Proof.
  intros b keep g mu it data d orders conv out Hm H. unfold soft_run in H.
  apply bind_ok in H as (s & Es & H). apply bind_ok in H as (ws & _ & H). apply bind_ok in H as (s1 & Ei & H).
  destruct b; [|discriminate]. cbn [negb] in H. apply bind_ok in H as (((iter & cv) & s4) & H & H').
  destruct (g_max_iters g) as [|mi] eqn:Em; [lia|]. cbn [Nat.ltb Nat.leb g_loop] in H.
  apply bind_ok in H as (s2 & E2 & H). apply bind_ok in H as (s3 & E3 & H). cbn [g_num_changed Nat.eqb orb] in H. injection H as <- <- <-.
  apply bind_ok in H' as (o & Ho & H'). injection H' as <- <-. split; [reflexivity|]. unfold gmm_result in Ho.
  apply bind_ok in Ho as (a1 & _ & Ho). apply bind_ok in Ho as (a2 & _ & Ho). apply bind_ok in Ho as (a3 & _ & Ho). apply bind_ok in Ho as (a4 & _ & Ho). injection Ho as <-. reflexivity.
Qed.

(** No run makes more than max_iters iterations. *)
Theorem C99_bounded_partial : forall b keep (g : kcfg N) mu it data d orders conv out,
  soft_run log2 two_pi b keep g mu it data d orders = Ok (conv, out) -> go_iters out <= g_max_iters g /\ (g_max_iters g = 0 -> conv = false).
Proof.
  intros b keep g mu it data d orders conv out H. destruct (g_max_iters g) as [|mi] eqn:Em.
  - unfold soft_run in H. apply bind_ok in H as (s & Es & H). apply bind_ok in H as (ws & _ & H). apply bind_ok in H as (s1 & Ei & H).
    destruct b; [|discriminate]. rewrite Em in H. cbn [negb g_loop Base.bind Nat.ltb Nat.leb] in H. apply bind_ok in H as (o & Ho & H'). injection H' as <- <-.
    unfold gmm_result in Ho. apply bind_ok in Ho as (a1 & _ & Ho). apply bind_ok in Ho as (a2 & _ & Ho). apply bind_ok in Ho as (a3 & _ & Ho). apply bind_ok in Ho as (a4 & _ & Ho). injection Ho as <-.
    split; [reflexivity|reflexivity].
  - assert (Hm : 1 <= g_max_iters g) by lia. destruct (@C99_one_iteration_refuted b keep g mu it data d orders conv out Hm H) as (_ & ->). split; [lia|discriminate].
Qed.

(** ** C100: the reported model *)

(** The result holds the means, covariances and weights in full. *)
Theorem C100_fields_partial : forall (g : kcfg N) iters s out, gmm_result g iters s = Ok out ->
  length (gm_mu s) = g_k g * g_ncol g -> (forall m, In m (gm_sigma s) -> length m = g_ncol g * g_ncol g) -> length (gm_Pk s) = g_k g -> g_nrow g <= length (gm_P s) ->
  go_means out = gm_mu s /\ go_cov out = gm_sigma s /\ go_prob out = gm_Pk s /\ go_resp out = firstn (g_nrow g) (gm_P s) /\
  go_nrow out = g_nrow g /\ go_ncol out = g_ncol g /\ go_k out = g_k g /\ go_iters out = iters.
Proof.
  intros g iters s out H L1 L2 L3 L4.
  assert (C : forall (l : list T) n, n <= length l -> copy_to (l, 0) n (repeat z n) 0 = Ok (firstn n l)).
  { intros l n Hl. rewrite copy_to_ok; cbn [fst snd]; [|rewrite repeat_length; lia|lia]. unfold slice. cbn [firstn skipn app Nat.add].
    rewrite skipn_all2 by (rewrite repeat_length; lia). rewrite app_nil_r. reflexivity. }
  unfold gmm_result in H. rewrite (C (gm_mu s)) in H by lia. cbn [Base.bind] in H.
  rewrite (@mapM_ok _ _ _ (fun m => m)) in H.
  2:{ intros m Hm. rewrite (L2 m Hm). rewrite (C m) by (rewrite (L2 m Hm); lia). rewrite <- (L2 m Hm), firstn_all. reflexivity. }
  cbn [Base.bind] in H. rewrite (C (gm_P s)) in H by lia. cbn [Base.bind] in H. rewrite (C (gm_Pk s)) in H by lia. cbn [Base.bind] in H.
  injection H as <-. cbn [go_means go_cov go_prob go_resp go_nrow go_ncol go_k go_iters]. rewrite map_id. rewrite <- L1, <- L3, !firstn_all. splits; reflexivity.
Qed.

(** The responsibilities are not: only nrow of the nrow * k values are there. *)
Theorem C100_resp_refuted : forall (g : kcfg N) iters s out, gmm_result g iters s = Ok out -> 2 <= g_k g -> 1 <= g_nrow g ->
  length (go_resp out) = g_nrow g /\ length (go_resp out) < g_nrow g * g_k g.
Proof.
  intros g iters s out H Hk Hn. unfold gmm_result in H.
  apply bind_ok in H as (a1 & _ & H). apply bind_ok in H as (a2 & _ & H). apply bind_ok in H as (a3 & E & H). apply bind_ok in H as (a4 & _ & H). injection H as <-. cbn [go_resp].
  apply copy_to_length in E. rewrite E, repeat_length. split; [reflexivity|nia].
Qed.
End Run.

(** A binding build, the means given, no more columns and no more rows per worker
    than components, exact arithmetic: the run returns a model with these means. *)
Theorem C98_completes_partial : forall log2 two_pi (g : kcfg NumR) (mu : list (car NumR)) it data d orders ws,
  valid_input g data -> build_workers g data = Ok ws -> 1 <= g_ncol g -> g_ncol g <= g_k g -> length mu = g_k g * g_ncol g ->
  (forall t row, In (t, row) (orders 1) -> row < g_k g /\ exists w, nth_error ws t = Some w /\ row < w_nrow w) ->
  exists conv out, soft_run log2 two_pi true true g (Some mu) it data d orders = Ok (conv, out) /\ go_means out = mu.
Proof.
  intros log2 two_pi g mu it data d orders ws V Ew Hc Hck Lmu Ho.
  destruct (get_workers V) as (ws' & Ew' & W). assert (Q := eq_trans (eq_sym Ew) Ew'). injection Q as <-. clear Ew'.
  unfold soft_run.
  assert (Ecp : copy_to (mu, 0) (g_k g * g_ncol g) (repeat (nzero NumR) (g_k g * g_ncol g)) 0 = Ok mu).
  { rewrite copy_to_ok; cbn [fst snd]; [|rewrite repeat_length; lia|lia]. unfold slice. cbn [firstn skipn app Nat.add].
    rewrite skipn_all2 by (rewrite repeat_length; lia). rewrite app_nil_r, <- Lmu, firstn_all. reflexivity. }
  destruct (gmm_create g (Some mu)) as [s|e] eqn:Es.
  2:{ exfalso. unfold gmm_create in Es. rewrite Ecp in Es. discriminate. }
  assert (Hmu : gm_mu s = mu) by (unfold gmm_create in Es; rewrite Ecp in Es; cbn [Base.bind] in Es; injection Es as <-; reflexivity).
  destruct (@gmm_create_sizes NumR g (Some mu) s Es) as (Sh & Hsig & Lsig & Hinv & _).
  cbn [Base.bind]. match goal with |- context [Base.bind ?t _] => replace t with (Ok ws : res (list (worker NumR))) by (symmetry; exact Ew) end.
  cbn [Base.bind g_init negb].
  assert (Res : forall iters (t : gst NumR), gshape g t -> gm_mu t = mu -> gm_sigma t = gm_sigma s -> exists out, gmm_result g iters t = Ok out /\ go_means out = mu).
  { intros iters t (T1 & T2 & T3 & T4 & T5 & T6 & T7) Tm Ts.
    assert (C : forall (l : list (car NumR)) n, n <= length l -> copy_to (l, 0) n (repeat (nzero NumR) n) 0 = Ok (firstn n l)).
    { intros l n Hl. rewrite copy_to_ok; cbn [fst snd]; [|rewrite repeat_length; lia|lia]. unfold slice. cbn [firstn skipn app Nat.add].
      rewrite skipn_all2 by (rewrite repeat_length; lia). rewrite app_nil_r. reflexivity. }
    unfold gmm_result. rewrite (C (gm_mu t)) by lia. cbn [Base.bind].
    rewrite (@mapM_ok _ _ _ (fun m => m)).
    2:{ rewrite Ts. intros m Hm. assert (Lm : length m = g_ncol g * g_ncol g) by (rewrite (Hsig m Hm); apply repeat_length). rewrite Lm, (C m) by lia. rewrite <- Lm, firstn_all. reflexivity. }
    cbn [Base.bind]. rewrite (C (gm_P t)) by (rewrite T6; nia). cbn [Base.bind]. rewrite (C (gm_Pk t)) by lia. cbn [Base.bind].
    eexists. split; [reflexivity|]. cbn [go_means]. rewrite Tm, <- Lmu, firstn_all. reflexivity. }
  destruct (g_max_iters g) as [|mi]; cbn [Nat.ltb Nat.leb g_loop Base.bind].
  { destruct (Res 0 s Sh Hmu eq_refl) as (out & Eo & Hm). rewrite Eo. cbn [Base.bind]. eauto. }
  destruct (@estep_ok NumR log2 two_pi g data ws W (proj2 (proj2 (proj2 V))) (orders 1) s Ho Sh) as (s1 & E1 & Sh1).
  destruct (@estep_frame NumR log2 two_pi g ws (g_k g) (orders 1) s s1 (fun t row Hin => proj1 (Ho t row Hin)) E1) as ((A1 & A2 & A3 & A4 & A5) & _).
  rewrite E1. cbn [Base.bind].
  assert (Eu : exists s2, g_update true g s1 = Ok s2 /\ gshape g s2 /\ gm_mu s2 = mu /\ gm_sigma s2 = gm_sigma s).
  { unfold g_update. pose proof Sh1 as (T1 & T2 & T3 & T4 & T5 & T6 & T7).
    match goal with |- context [Base.bind ?t _] => assert (G : okp t (fun v => length v = g_k g)) end.
    { apply (loop_okp (fun _ v => length v = g_k g)); [apply repeat_length|]. intros row v Hr Lv.
      apply (loop_okp (fun _ v => length v = g_k g)); [exact Lv|]. intros col v' Hcol Lv'.
      rewrite (@aget_nth _ _ (row * g_k g + col) (nzero NumR)) by (rewrite T6; nia). cbn [Base.bind].
      rewrite (@amod_nth _ v' col _ (nzero NumR)) by lia. cbn [okp]. rewrite upd_length. exact Lv'. }
    match goal with |- context [Base.bind ?t _] => destruct t as [u|]; [|destruct G] end. cbn [Base.bind]. clear G. unfold shared_linalg.
    set (Inv := fun (c : nat) (st : list (list (car NumR)) * list (car NumR)) => length (fst st) = g_k g /\ (forall m, In m (fst st) -> length m = g_ncol g * g_ncol g) /\ length (snd st) = g_k g).
    match goal with |- context [loop (g_k g) ?f ?i] => assert (G : okp (loop (g_k g) f i) (Inv (g_k g))) end.
    { apply (loop_okp Inv); [unfold Inv; cbn [fst snd]; auto|]. intros c (iv & dt) Hcl (I1 & I2 & I3). cbn [fst snd] in *.
      assert (Lsg : length (gm_sigma s1) = g_k g) by (rewrite A2; exact Lsig).
      rewrite (@aget_nth _ (gm_sigma s1) c []) by lia. cbn [Base.bind]. rewrite (@aget_nth _ iv c []) by lia. cbn [Base.bind].
      set (A := nth c (gm_sigma s1) []). assert (LA : length A = g_ncol g * g_ncol g).
      { unfold A. assert (Hin : In (nth c (gm_sigma s1) []) (gm_sigma s)) by (rewrite <- A2; apply nth_In; lia). rewrite (Hsig _ Hin). apply repeat_length. }
      assert (Li : length (nth c iv []) = g_ncol g * g_ncol g) by (apply I2, nth_In; lia).
      destruct (@PropertiesInverse.c49_computes (g_ncol g) A (nth c iv []) Hc LA Li) as (D0 & D1).
      pose proof (@PropertiesInverse.determinant_ok (g_ncol g) (g_ncol g) A (g_ncol g) (le_n _) Hc (le_n _) LA) as Ed.
      destruct (Req_EM_T (PropertiesInverse.det (g_ncol g) (PropertiesInverse.ent A (g_ncol g))) 0%R) as [Hz|Hz].
      - rewrite (D0 Hz). cbn [Base.bind]. rewrite Ed. cbn [Base.bind]. rewrite aset_ok by lia. cbn [Base.bind okp]. unfold Inv. cbn [fst snd]. rewrite upd_length. auto.
      - destruct (D1 Hz) as (B & EB & LB & _). rewrite EB. cbn [Base.bind]. rewrite aset_ok by lia. cbn [Base.bind]. rewrite Ed. cbn [Base.bind]. rewrite aset_ok by lia. cbn [Base.bind okp]. unfold Inv. cbn [fst snd]. rewrite !upd_length.
        splits; auto. intros m Hm. apply In_nth_error in Hm as (i & Hi). rewrite nth_error_upd in Hi. destruct (i =? c); [destruct (c <? length iv); [injection Hi as <-; exact LB|discriminate]|apply I2; eapply nth_error_In; exact Hi]. }
    match goal with |- context [loop (g_k g) ?f ?i] => destruct (loop (g_k g) f i) as [(iv & dt)|]; [|destruct G] end.
    destruct G as (I1 & I2 & I3). cbn [fst snd Base.bind] in *. eexists. split; [reflexivity|].
    unfold gshape, with_P. cbn [gm_mu gm_sigma gm_inv gm_P gm_Pk gm_dets gm_Px]. rewrite repeat_length. splits; auto. congruence. }
  destruct Eu as (s2 & Eu & Sh2 & Hm2 & Hs2). rewrite Eu. cbn [Base.bind]. cbn [g_num_changed Nat.eqb orb].
  cbn [Base.bind]. destruct (Res 1 s2 Sh2 Hm2 Hs2) as (out & Eo & Hm). rewrite Eo. cbn [Base.bind]. eauto.
Qed.
Print Assumptions C98_completes_partial.

(** IEEE arithmetic, one worker, the means given: every responsibility a completed
    run reports is NaN. *)
Theorem C65_result_nan_refuted : forall (log2 : F64 -> F64) two_pi keep (g : kcfg NumF) mu it data d orders ws conv out,
  log2 (S754_zero false) = S754_infinity true -> valid_input g data -> build_workers g data = Ok ws -> length ws = 1 ->
  1 <= g_k g -> 1 <= g_ncol g -> 1 <= g_max_iters g ->
  (forall t row, In (t, row) (orders 1) <-> t = 0 /\ row < g_nrow g) ->
  @soft_run NumF log2 two_pi true keep g (Some mu) it data d orders = Ok (conv, out) ->
  length (go_resp out) = g_nrow g /\ forall i, i < g_nrow g -> nth_error (go_resp out) i = Some S754_nan.
Proof.
  intros log2 two_pi keep g mu it data d orders ws conv out Hlog V Ew L1 Hk Hc Hmi Ho H.
  destruct (get_workers V) as (ws' & Ew' & W). assert (Q := eq_trans (eq_sym Ew) Ew'). injection Q as <-. clear Ew'.
  unfold soft_run in H. apply bind_ok in H as (s & Es & H). rewrite Ew in H. cbn [Base.bind g_init negb] in H.
  apply bind_ok in H as (((iter & cv) & s4) & H & H'). destruct (g_max_iters g) as [|mi]; [lia|]. cbn [Nat.ltb Nat.leb g_loop] in H.
  apply bind_ok in H as (s2 & E2 & H). apply bind_ok in H as (s3 & E3 & H). cbn [g_num_changed Nat.eqb orb] in H. injection H as <- <- <-.
  apply bind_ok in H' as (o & Hr & H'). injection H' as <- <-.
  destruct (@gmm_create_sizes NumF g (Some mu) s Es) as (Sh & Hsig & Lsig & Hinv & Hdet & Hpk & HP & Hpx).
  assert (Hwn : exists w, ws = [w] /\ w_nrow w = g_nrow g).
  { destruct ws as [|w [|w' ws]]; try discriminate. exists w. split; [reflexivity|]. destruct W as (Ht & _). cbn [w_ranges map ntiles] in Ht. lia. }
  destruct Hwn as (w & -> & Hwn).
  assert (Hord : forall t row, In (t, row) (orders 1) -> row < g_k g /\ exists w', nth_error [w] t = Some w' /\ row < w_nrow w').
  { intros t row Hin. split; [exact (@estep_oob NumF log2 two_pi g [w] Hk Hc _ _ _ (proj1 Sh) E2 t row Hin)|].
    apply Ho in Hin as (-> & Hr'). exists w. split; [reflexivity|lia]. }
  assert (Hfr : fresh_state s).
  { unfold fresh_state. rewrite Hinv, Hdet, Hpk, Hpx. splits.
    - intros m x Hm Hx. rewrite (Hsig m Hm) in Hx. apply repeat_spec in Hx. exact Hx.
    - intros x Hx. apply repeat_spec in Hx. exact Hx.
    - intros x Hx. apply repeat_spec in Hx. rewrite Hx. exact I.
    - intros x Hx. apply repeat_spec in Hx. exact Hx. }
  pose proof (@C65_nan_refuted log2 two_pi Hlog g data [w] (orders 1) s s2 W (proj2 (proj2 (proj2 V))) Hk Sh Hfr Hord E2) as Hnan.
  destruct (@estep_frame NumF log2 two_pi g [w] (g_k g) (orders 1) s s2 (fun t row Hin => proj1 (Hord t row Hin)) E2) as (_ & LP & _).
  assert (Ep : gm_P s3 = gm_P s2).
  { unfold g_update in E3. apply bind_ok in E3 as (u & _ & E3). apply bind_ok in E3 as (s5 & E5 & E3). injection E3 as <-. cbn [with_P gm_P].
    unfold shared_linalg in E5. apply bind_ok in E5 as ((iv & dt) & _ & E5). injection E5 as <-. reflexivity. }
  unfold gmm_result in Hr. apply bind_ok in Hr as (a1 & _ & Hr). apply bind_ok in Hr as (a2 & _ & Hr). apply bind_ok in Hr as (a3 & Er & Hr). apply bind_ok in Hr as (a4 & _ & Hr). injection Hr as <-. cbn [go_resp].
  rewrite Ep in Er. assert (LPn : length (gm_P s2) = g_nrow g * g_k g) by (rewrite LP; apply Sh).
  assert (Hle : g_nrow g <= g_nrow g * g_k g) by nia. rewrite copy_to_ok in Er; cbn [fst snd] in *; [|rewrite repeat_length; lia|rewrite LPn; exact Hle]. injection Er as <-. cbn [firstn app Nat.add]. unfold slice. cbn [skipn].
  rewrite skipn_all2 by (rewrite repeat_length; lia). rewrite app_nil_r. split; [rewrite firstn_length; etransitivity; [apply f_equal2; [reflexivity|exact LPn]|]; apply Nat.min_l; exact Hle|].
  intros i Hi. rewrite nth_error_firstn. destruct (Nat.ltb_spec i (g_nrow g)); [|lia].
  assert (Hil : i < length (gm_P s2)) by (eapply Nat.lt_le_trans; [exact Hi|]; eapply Nat.le_trans; [exact Hle|]; apply Nat.eq_le_incl; symmetry; exact LPn).
  rewrite (nth_error_nth' (gm_P s2) (S754_zero false) Hil). f_equal.
  pose proof (Nat.div_mod i (g_k g) ltac:(lia)) as Edm. replace i with (i / g_k g * g_k g + i mod g_k g) by lia. apply (Hnan 0); [apply Ho; split; [reflexivity|]|apply Nat.mod_upper_bound; lia].
  apply Nat.div_lt_upper_bound; [lia|]. nia.
Qed.
Print Assumptions C65_result_nan_refuted.
