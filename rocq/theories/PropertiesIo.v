(** C52: writing and reading matrices round-trips. *)
From Coq Require Import Init.Byte Eqdep_dec.
From Verif Require Import Base IoModel.
Set Implicit Arguments.
Unset Strict Implicit.

(** what is assumed of the machine representation of T (the 8 bytes of a
    double): fixed size, and decoding the bytes of an object gives it back *)
Record repr_ok {B T} (sz : nat) (enc : T -> list B) (dec : list B -> T) : Prop := mkRepr {
  r_pos : 1 <= sz;
  r_len : forall x, length (enc x) = sz;
  r_dec : forall x, dec (enc x) = x }.

Section P.
Variables (B T : Type) (sz : nat) (enc : T -> list B) (dec : list B -> T).
Hypothesis RO : repr_ok sz enc dec.
Notation fread1 := (fread1 sz enc dec).
Notation bytes_of := (bytes_of enc).
Notation objects_of := (objects_of sz dec).

Lemma bytes_length l : length (bytes_of l) = sz * length l.
Proof.
  unfold IoModel.bytes_of. induction l as [|x l IH]; cbn [map concat length]; [lia|].
  rewrite app_length, IH, (r_len RO). lia.
Qed.
Lemma bytes_app l m : bytes_of (l ++ m) = bytes_of l ++ bytes_of m.
Proof. unfold IoModel.bytes_of. rewrite map_app, concat_app. reflexivity. Qed.

Lemma objects_bytes l : objects_of (length l) (bytes_of l) = l.
Proof.
  induction l as [|x l IH]; [reflexivity|].
  cbn [length IoModel.objects_of]. change (bytes_of (x :: l)) with (enc x ++ bytes_of l).
  rewrite firstn_app, (r_len RO), Nat.sub_diag, firstn_O, app_nil_r.
  rewrite firstn_all2 by (rewrite (r_len RO); lia). rewrite (r_dec RO). f_equal.
  rewrite skipn_app, (r_len RO), Nat.sub_diag, skipn_O.
  rewrite skipn_all2 by (rewrite (r_len RO); lia). exact IH.
Qed.

Lemma skipn_bytes n l : skipn (n * sz) (bytes_of l) = bytes_of (skipn n l).
Proof.
  revert l; induction n as [|n IH]; intros l; [reflexivity|].
  destruct l as [|x l]; [rewrite !skipn_nil; reflexivity|]. cbn [skipn].
  change (bytes_of (x :: l)) with (enc x ++ bytes_of l).
  rewrite skipn_app, (r_len RO). rewrite skipn_all2 by (rewrite (r_len RO); cbn; lia).
  replace (S n * sz - sz) with (n * sz) by (cbn; lia). apply IH.
Qed.
Lemma firstn_bytes n l : firstn (n * sz) (bytes_of l) = bytes_of (firstn n l).
Proof.
  revert l; induction n as [|n IH]; intros l; [reflexivity|].
  destruct l as [|x l]; [rewrite !firstn_nil; reflexivity|]. cbn [firstn].
  change (bytes_of (x :: l)) with (enc x ++ bytes_of l).
  change (bytes_of (x :: firstn n l)) with (enc x ++ bytes_of (firstn n l)).
  rewrite firstn_app, (r_len RO). rewrite firstn_all2 by (rewrite (r_len RO); cbn; lia).
  replace (S n * sz - sz) with (n * sz) by (cbn; lia). rewrite IH. reflexivity.
Qed.

(** reading [n] objects from position [o] of a file that stores [data] *)
Lemma fread_objects (data buf : list T) o n : n <= length buf ->
  fread1 buf (sz * n) (mkFile (bytes_of data) (o * sz)) =
  Ok ((1 <=? sz * n) && (n <=? length data - o),
      slice data o n ++ skipn (length (slice data o n)) buf,
      mkFile (bytes_of data) ((o + length (slice data o n)) * sz)).
Proof.
  intros Hn. unfold IoModel.fread1. rewrite bytes_length.
  destruct (Nat.ltb_spec (sz * length buf) (sz * n)); [nia|]. cbn [content pos].
  rewrite skipn_bytes, (Nat.mul_comm sz n), firstn_bytes. fold (slice data o n).
  rewrite bytes_length, (Nat.mul_comm sz (length (slice data o n))), skipn_bytes.
  rewrite <- bytes_app.
  assert (L : length (slice data o n) = Nat.min n (length data - o)).
  { unfold slice. rewrite firstn_length, skipn_length. reflexivity. }
  pose proof (r_pos RO) as P.
  assert (E1 : (length (slice data o n) * sz =? n * sz) = (n <=? length data - o)).
  { rewrite L. destruct (Nat.eqb_spec (Nat.min n (length data - o) * sz) (n * sz)), (Nat.leb_spec n (length data - o));
      auto; exfalso.
    - assert (Nat.min n (length data - o) = n) by nia. lia.
    - apply n0. rewrite Nat.min_l by lia. reflexivity. }
  rewrite E1.
  assert (E2 : length buf = length (slice data o n ++ skipn (length (slice data o n)) buf)).
  { rewrite app_length, skipn_length. lia. }
  rewrite E2 at 1. rewrite objects_bytes. rewrite (Nat.mul_comm n sz), Nat.mul_add_distr_r. reflexivity.
Qed.

(** ** Writing *)
Lemma write_ok nd (data : list T) f : data <> [] ->
  bin_write sz enc nd data (length data) f =
  Ok (mkFile (content f ++ bytes_of data) (pos f + sz * length data)).
Proof.
  intros H. unfold bin_write, fwrite1. rewrite Nat.add_0_l.
  destruct (Nat.ltb_spec (length data) (length data)); [lia|]. rewrite slice_all.
  assert (L : 1 <=? sz * length data = true).
  { apply Nat.leb_le. destruct data; [congruence|]. cbn [length]. pose proof (r_pos RO). nia. }
  rewrite L. cbn [bind]. unfold checked. rewrite orb_true_r. reflexivity.
Qed.

(** The file that results from writing a matrix in any number of non-empty
    pieces is the row-major sequence of all its bytes. *)
Theorem c52_write_pieces : forall nd (pieces : list (list T)), (forall p, In p pieces -> p <> []) ->
  exists f, for_each pieces (fun p f => bin_write sz enc nd p (length p) f) (mkFile [] 0) = Ok f /\
    content f = bytes_of (concat pieces) /\ pos f = length (content f).
Proof.
  intros nd pieces H.
  assert (K : forall f0, pos f0 = length (content f0) ->
     exists f, for_each pieces (fun p f => bin_write sz enc nd p (length p) f) f0 = Ok f /\
       content f = content f0 ++ bytes_of (concat pieces) /\ pos f = length (content f)).
  { induction pieces as [|p ps IH]; intros f0 H0.
    - exists f0. cbn. rewrite app_nil_r. auto.
    - cbn [for_each]. rewrite write_ok by (apply H; left; auto). cbn [bind].
      destruct (IH ltac:(intros q Hq; apply H; right; auto) (mkFile (content f0 ++ bytes_of p) (pos f0 + sz * length p)))
        as (f & E & C & P).
      + cbn [pos content]. rewrite app_length, bytes_length. lia.
      + exists f. splits; auto. rewrite C. cbn [content concat]. rewrite bytes_app, app_assoc. reflexivity. }
  exact (K (mkFile [] 0) eq_refl).
Qed.

(** ** Reading everything at once *)
(** [read(vector)] and [read(pointer)] into a buffer of at least nrow*ncol
    elements return exactly the matrix. *)
Theorem c52_read_all : forall nd (data buf : list T) nrow ncol,
  length data = nrow * ncol -> 1 <= nrow * ncol -> nrow * ncol <= length buf ->
  exists f, bin_read_vec sz enc dec nd buf nrow ncol (mkFile (bytes_of data) 0) =
      Ok (data ++ skipn (nrow * ncol) buf, f) /\
    bin_read_ptr sz enc dec nd buf nrow ncol (mkFile (bytes_of data) 0) =
      Ok (data ++ skipn (nrow * ncol) buf, f) /\
    bin_more sz nrow ncol f = false.
Proof.
  intros nd data buf nrow ncol L H1 Hb.
  pose proof (@fread_objects data buf 0 (nrow * ncol) Hb) as E.
  rewrite Nat.mul_0_l in E.
  assert (SL : slice data 0 (nrow * ncol) = data) by (rewrite <- L; apply slice_all).
  rewrite SL, L in E.
  assert (B1 : (1 <=? sz * (nrow * ncol)) && (nrow * ncol <=? nrow * ncol - 0) = true).
  { apply andb_true_intro; split; apply Nat.leb_le; [pose proof (r_pos RO); nia|lia]. }
  rewrite B1 in E. exists (mkFile (bytes_of data) ((0 + nrow * ncol) * sz)).
  unfold bin_read_vec, bin_read_ptr. replace (sz * ncol * nrow) with (sz * (nrow * ncol)) by lia.
  rewrite E. cbn [bind]. unfold checked. rewrite orb_true_r. cbn [bind]. splits; auto.
  unfold bin_more. cbn [pos]. rewrite Nat.add_0_l, Nat.eqb_refl. reflexivity.
Qed.

(** ** Reading row by row *)
Definition read_rows (nd : bool) (zero : T) (nrow ncol n : nat) (f : file B) : res (list (list T) * file B) :=
  loop n (fun i st => let* (v, f) := bin_readline sz enc dec nd zero ncol (snd st) in
                      Ok (fst st ++ [v], f)) ([], f).

(** The i-th call of [readline] returns row i, "more to read" is true before
    each of the nrow calls and false after the last one. *)
Theorem c52_read_rows : forall nd zero (data : list T) nrow ncol n,
  length data = nrow * ncol -> 1 <= ncol -> n <= nrow ->
  exists f, read_rows nd zero nrow ncol n (mkFile (bytes_of data) 0) =
      Ok (map (row data ncol) (seq 0 n), f) /\
    (bin_more sz nrow ncol f = false <-> n = nrow).
Proof.
  intros nd zero data nrow ncol n L Hc Hn.
  exists (mkFile (bytes_of data) (n * ncol * sz)). split.
  - revert Hn. induction n as [|n IH]; intros Hn; [reflexivity|].
    unfold read_rows in *. rewrite loop_S, IH by lia. cbn [bind fst snd].
    unfold bin_readline. rewrite fread_objects by (rewrite repeat_length; lia).
    assert (LS : length (slice data (n * ncol) ncol) = ncol).
    { apply slice_length. rewrite L. nia. }
    rewrite LS. rewrite skipn_all2 by (rewrite repeat_length; lia). rewrite app_nil_r.
    assert (B1 : (1 <=? sz * ncol) && (ncol <=? length data - n * ncol) = true).
    { apply andb_true_intro; split; apply Nat.leb_le; [pose proof (r_pos RO); nia|]. rewrite L. nia. }
    rewrite B1. cbn [bind]. unfold checked. rewrite orb_true_r. cbn [bind].
    rewrite seq_S, map_app. cbn [map Nat.add]. replace ((n * ncol + ncol) * sz) with (S n * ncol * sz) by lia. reflexivity.
  - unfold bin_more. cbn [pos]. pose proof (r_pos RO) as P.
    destruct (Nat.eqb_spec (n * ncol * sz) (nrow * ncol * sz)) as [E|E]; cbn [negb]; split; intros H; auto; try discriminate.
    + apply Nat.mul_cancel_r in E; [|lia]. apply Nat.mul_cancel_r in E; lia.
    + subst n. congruence.
Qed.

(** the overload that fills a caller's buffer: row i goes to the front of the
    buffer, the rest of the buffer stays, and the file is left at row i+1 *)
Theorem c52_readline_to : forall nd (data buf : list T) nrow ncol i,
  length data = nrow * ncol -> 1 <= ncol -> i < nrow -> ncol <= length buf ->
  bin_readline_to sz enc dec nd buf ncol (mkFile (bytes_of data) (i * ncol * sz)) =
    Ok (row data ncol i ++ skipn ncol buf, mkFile (bytes_of data) ((i + 1) * ncol * sz)).
Proof.
  intros nd data buf nrow ncol i L Hc Hi Hb. unfold bin_readline_to. rewrite fread_objects by exact Hb.
  assert (LS : length (slice data (i * ncol) ncol) = ncol) by (apply slice_length; rewrite L; nia).
  rewrite LS.
  assert (B1 : (1 <=? sz * ncol) && (ncol <=? length data - i * ncol) = true).
  { apply andb_true_intro; split; apply Nat.leb_le; [pose proof (r_pos RO); nia|]. rewrite L. nia. }
  rewrite B1. cbn [bind]. unfold checked. rewrite orb_true_r. cbn [bind].
  replace ((i * ncol + ncol) * sz) with ((i + 1) * ncol * sz) by lia. reflexivity.
Qed.

(** ** A file that is too short *)
(** Without NDEBUG every reader aborts; with it [read(vector)] throws, but
    [read(pointer)] returns normally with the tail of the buffer unchanged. *)
Theorem c52_short_file : forall (data buf : list T) nrow ncol,
  length data < nrow * ncol -> nrow * ncol <= length buf ->
  bin_read_vec sz enc dec true buf nrow ncol (mkFile (bytes_of data) 0) = Err Throw /\
  bin_read_vec sz enc dec false buf nrow ncol (mkFile (bytes_of data) 0) = Err Abort /\
  bin_read_ptr sz enc dec false buf nrow ncol (mkFile (bytes_of data) 0) = Err Abort /\
  exists f, bin_read_ptr sz enc dec true buf nrow ncol (mkFile (bytes_of data) 0)
    = Ok (data ++ skipn (length data) buf, f).
Proof.
  intros data buf nrow ncol L Hb.
  pose proof (@fread_objects data buf 0 (nrow * ncol) Hb) as E. rewrite Nat.mul_0_l in E.
  assert (SL : slice data 0 (nrow * ncol) = data).
  { unfold slice. cbn [skipn]. apply firstn_all2. lia. }
  rewrite SL in E.
  assert (B1 : (1 <=? sz * (nrow * ncol)) && (nrow * ncol <=? length data - 0) = false).
  { apply andb_false_intro2. apply Nat.leb_gt. lia. }
  rewrite B1 in E.
  unfold bin_read_vec, bin_read_ptr. replace (sz * ncol * nrow) with (sz * (nrow * ncol)) by lia.
  rewrite E. cbn [bind checked orb]. splits; eauto.
Qed.

(** ** The stream reader *)
(** [read] with a buffer of n elements returns the first n of the file. *)
Theorem c52_stream_read : forall (data buf : list T), 1 <= length buf -> length buf <= length data ->
  exists r, rm_read sz enc dec buf (rm_open (bytes_of data)) = Ok (firstn (length buf) data, r).
Proof.
  intros data buf H1 H2. unfold rm_read. rewrite (proj2 (Nat.ltb_lt 0 (length buf))) by lia. cbn [assert_ bind].
  unfold istream_read. cbn [rm_open rm_good rm_file]. rewrite (Nat.mul_comm (length buf) sz).
  pose proof (@fread_objects data buf 0 (length buf) ltac:(lia)) as E. rewrite Nat.mul_0_l in E. rewrite E.
  cbn [bind]. rewrite skipn_all2.
  - rewrite app_nil_r. eexists. reflexivity.
  - rewrite slice_length by lia. lia.
Qed.

(** n calls of [readline] with a buffer of ncol elements: results and buffers *)
Fixpoint stream_lines (ncol n : nat) (buf : list T) (r : rmr B) : res (list (bool * list T) * rmr B) :=
  match n with
  | 0 => Ok ([], r)
  | S k => let* (ok, buf, r) := rm_readline sz enc dec ncol buf r in
           let* (l, r) := stream_lines ncol k buf r in Ok ((ok, buf) :: l, r)
  end.

(** The first nrow calls return true and the rows in order; every later call
    returns false; the number of lines read is nrow. *)
Theorem c52_stream_lines : forall (data buf : list T) nrow ncol extra,
  length data = nrow * ncol -> 1 <= ncol -> length buf = ncol ->
  exists l r, stream_lines ncol (nrow + extra) buf (rm_open (bytes_of data)) = Ok (l, r) /\
    length l = nrow + extra /\
    (forall i, i < nrow -> nth i l (false, []) = (true, row data ncol i)) /\
    (forall i, nrow <= i < nrow + extra -> fst (nth i l (true, [])) = false) /\
    rm_nrow r = nrow.
Proof.
  intros data buf nrow ncol extra L Hc Lb.
  (* once failed, always failed *)
  assert (F : forall n buf r, rm_good r = false ->
     exists l, stream_lines ncol n buf r = Ok (l, r) /\ length l = n /\ forall i, i < n -> fst (nth i l (true, [])) = false).
  { induction n as [|n IH]; intros b r G; cbn [stream_lines].
    - exists []. splits; auto. intros; lia.
    - unfold rm_readline. rewrite (proj2 (Nat.ltb_lt 0 ncol)) by lia. cbn [assert_ bind].
      unfold istream_read. rewrite G. cbn [bind].
      destruct (IH b r G) as (l & E & Ll & Fl). rewrite E. cbn [bind]. exists ((false, b) :: l).
      splits; cbn [length]; auto. intros [|i] Hi; cbn [nth]; auto. apply Fl. lia. }
  assert (X : forall n buf, length buf = ncol ->
     exists l r, stream_lines ncol n buf (mkRmr (mkFile (bytes_of data) (nrow * ncol * sz)) true nrow) = Ok (l, r) /\
       length l = n /\ (forall i, i < n -> fst (nth i l (true, [])) = false) /\ rm_nrow r = nrow).
  { intros n b Lbb. destruct n as [|n]; cbn [stream_lines].
    - eexists [], _. splits; auto. intros; lia.
    - unfold rm_readline. rewrite (proj2 (Nat.ltb_lt 0 ncol)) by lia. cbn [assert_ bind].
      unfold istream_read. cbn [rm_good rm_file]. rewrite Lbb, (Nat.mul_comm ncol sz).
      rewrite fread_objects by lia. cbn [bind].
      assert (SL : slice data (nrow * ncol) ncol = []).
      { unfold slice. rewrite skipn_all2 by lia. apply firstn_nil. }
      rewrite SL. cbn [length skipn app pos].
      replace ((nrow * ncol + 0) * sz - nrow * ncol * sz =? sz * ncol) with false.
      2: { symmetry. apply Nat.eqb_neq. pose proof (r_pos RO). nia. }
      cbn [bind]. 
      match goal with |- context [stream_lines ncol n b ?r0] => destruct (F n b r0 eq_refl) as (l & E & Ll & Fl) end.
      rewrite E. cbn [bind]. eexists _, _. splits; [reflexivity| | |reflexivity].
      + cbn [length]. lia.
      + intros [|i] Hi; cbn [nth fst]; auto. apply Fl. lia. }
  assert (Y : forall m k buf, k + m = nrow -> length buf = ncol ->
     exists l r, stream_lines ncol (m + extra) buf (mkRmr (mkFile (bytes_of data) (k * ncol * sz)) true k) = Ok (l, r) /\
       length l = m + extra /\
       (forall i, i < m -> nth i l (false, []) = (true, row data ncol (k + i))) /\
       (forall i, m <= i < m + extra -> fst (nth i l (true, [])) = false) /\ rm_nrow r = nrow).
  { induction m as [|m IH]; intros k b Hk Lbb.
    - assert (k = nrow) by lia. subst k. destruct (X extra b Lbb) as (l & r & E & Ll & Fl & Rn).
      exists l, r. splits; auto; intros; try lia. apply Fl. lia.
    - cbn [Nat.add stream_lines].
      unfold rm_readline. rewrite (proj2 (Nat.ltb_lt 0 ncol)) by lia. cbn [assert_ bind].
      unfold istream_read. cbn [rm_good rm_file]. rewrite Lbb, (Nat.mul_comm ncol sz).
      rewrite fread_objects by lia. cbn [bind].
      assert (LS : length (slice data (k * ncol) ncol) = ncol) by (apply slice_length; rewrite L; nia).
      rewrite LS. cbn [pos]. rewrite skipn_all2 by lia. rewrite app_nil_r.
      replace ((k * ncol + ncol) * sz - k * ncol * sz =? sz * ncol) with true.
      2: { symmetry. apply Nat.eqb_eq. nia. }
      cbn [bind rm_file rm_good rm_nrow].
      replace ((k * ncol + ncol) * sz) with (S k * ncol * sz) by lia.
      destruct (IH (S k) (slice data (k * ncol) ncol) ltac:(lia) LS) as (l & r & E & Ll & A & C & D).
      rewrite E. cbn [bind]. eexists _, r. splits; [reflexivity|cbn [length]; lia| | |exact D].
      + intros [|i] Hi; cbn [nth].
        * rewrite Nat.add_0_r. reflexivity.
        * rewrite A by lia. do 2 f_equal. lia.
      + intros [|i] Hi; cbn [nth]; [lia|]. apply C. lia. }
  destruct (Y nrow 0 buf ltac:(lia) Lb) as (l & r & H). exists l, r. exact H.
Qed.

(** ** Storing one cluster *)
Definition members (asg : list nat) (id n : nat) : list nat :=
  filter (fun i => nth i asg 0 =? id) (seq 0 n).

(** With the right count, the file holds exactly the rows of the cluster, in
    order; with a count that is too large the program stops. *)
Theorem c52_store_cluster : forall nd id (data : list T) numel asg nrow ncol,
  length data = nrow * ncol -> 1 <= ncol -> length asg = nrow ->
  (numel = length (members asg id nrow) ->
    store_cluster sz enc nd id data numel asg nrow ncol =
      Ok (bytes_of (concat (map (row data ncol) (members asg id nrow))))) /\
  (length (members asg id nrow) < numel ->
    store_cluster sz enc false id data numel asg nrow ncol = Err Abort).
Proof.
  intros nd id data numel asg nrow ncol L Hc La.
  assert (K : forall nd n, n <= nrow -> length (members asg id nrow) <= numel ->
    exists p, loop n (fun i st =>
      let '(f, count) := st in
      if count =? numel then Ok st
      else
        let* a := aget asg i in
        if a =? id then
          let* (ok, f) := fwrite1 sz enc data (i * ncol) ncol f in
          let* _ := checked nd ok in Ok (f, S count)
        else Ok st) (mkFile [] 0, 0) =
    Ok (mkFile (bytes_of (concat (map (row data ncol) (members asg id n)))) p, length (members asg id n))).
  { intros nd' n. induction n as [|n IH]; intros Hn Hm.
    - exists 0. reflexivity.
    - destruct (IH ltac:(lia) Hm) as (p & E). rewrite loop_S, E. cbn [bind].
      assert (MS : members asg id (S n) = members asg id n ++ if nth n asg 0 =? id then [n] else []).
      { unfold members. rewrite seq_S, filter_app. cbn [filter Nat.add]. destruct (nth n asg 0 =? id); reflexivity. }
      assert (ML : length (members asg id (S n)) <= length (members asg id nrow)).
      { unfold members. replace nrow with (S n + (nrow - S n)) by lia. rewrite seq_app, filter_app, app_length. lia. }
      rewrite (aget_nth asg 0) by lia. cbn [bind].
      destruct (Nat.eqb_spec (nth n asg 0) id) as [Ei|Ei].
      + rewrite MS, app_length in ML. cbn [length] in ML.
        destruct (Nat.eqb_spec (length (members asg id n)) numel); [lia|].
        unfold fwrite1. destruct (Nat.ltb_spec (length data) (n * ncol + ncol)); [rewrite L in *; nia|].
        cbn [bind]. assert (P1 : 1 <=? sz * ncol = true) by (apply Nat.leb_le; pose proof (r_pos RO); nia).
        rewrite P1. unfold checked. rewrite orb_true_r. cbn [bind content pos]. eexists.
        rewrite MS, map_app, concat_app, bytes_app, app_length. cbn [map concat length]. rewrite app_nil_r.
        unfold row at 3. rewrite Nat.add_1_r. reflexivity.
      + rewrite MS, app_nil_r. exists p. destruct (length (members asg id n) =? numel); reflexivity. }
  split.
  - intros Hm. unfold store_cluster. destruct (K nd nrow ltac:(lia) ltac:(lia)) as (p & E). rewrite E. cbn [bind content].
    rewrite <- Hm, Nat.eqb_refl. unfold checked. rewrite orb_true_r. reflexivity.
  - intros Hm. unfold store_cluster. destruct (K false nrow ltac:(lia) ltac:(lia)) as (p & E). rewrite E. cbn [bind].
    destruct (Nat.eqb_spec (length (members asg id nrow)) numel); [lia|]. reflexivity.
Qed.

(** ** The text reader *)
(** the numbers of a line: the tokens up to the first that is not a number *)
Fixpoint numbers (ln : list (option T)) : list T :=
  match ln with Some x :: r => x :: numbers r | _ => [] end.

Lemma put_tokens_ok ln p (data : list T) : p + length (numbers ln) <= length data ->
  put_tokens ln p data = Ok (firstn p data ++ numbers ln ++ skipn (p + length (numbers ln)) data,
                             p + length (numbers ln)).
Proof.
  revert p data. induction ln as [|[x|] ln IH]; intros p data H; cbn [put_tokens numbers length] in *.
  - rewrite Nat.add_0_r. cbn [app]. rewrite firstn_skipn. reflexivity.
  - rewrite aset_ok by lia. cbn [bind]. rewrite IH by (rewrite upd_length; lia).
    rewrite <- Nat.add_succ_comm. f_equal. f_equal.
    assert (A : forall (l : list T) p y, p < length l -> firstn (S p) (upd l p y) = firstn p l ++ [y] /\
                  forall n, S p <= n -> skipn n (upd l p y) = skipn n l).
    { clear. induction l as [|z l IH]; intros p y Hp; cbn [length] in Hp; [lia|].
      destruct p as [|p]; cbn [upd firstn app].
      - split; [reflexivity|]. intros [|n] Hn; [lia|reflexivity].
      - destruct (IH p y ltac:(lia)) as (A & B0). split; [f_equal; exact A|].
        intros [|n] Hn; [lia|]. cbn [skipn]. apply B0. lia. }
    destruct (A data p x ltac:(lia)) as (A1 & A2). rewrite A1, A2 by lia.
    rewrite <- app_assoc. reflexivity.
  - rewrite Nat.add_0_r. cbn [app]. rewrite firstn_skipn. reflexivity.
Qed.

(** [readline] returns the numbers of the next line at the front of the
    buffer; at the end of the file it returns false. *)
Theorem c52_text_line : forall (data : list T) ln rest n, 1 <= length data ->
  text_readline data ([], n) = Ok (false, data, ([], n)) /\
  (length (numbers ln) <= length data ->
    text_readline data (ln :: rest, n) =
      Ok (true, numbers ln ++ skipn (length (numbers ln)) data, (rest, S n))) /\
  (length data < length (numbers ln) -> text_readline data (ln :: rest, n) = Err UB).
Proof.
  intros data ln rest n H. unfold text_readline. rewrite (proj2 (Nat.ltb_lt 0 (length data))) by lia.
  cbn [assert_ bind fst snd]. splits; auto.
  - intros Hn. rewrite put_tokens_ok by lia. reflexivity.
  - intros Hn.
    assert (K : forall ln p (d : list T), length d < p + length (numbers ln) -> p <= length d -> put_tokens ln p d = Err UB).
    { clear. induction ln as [|[x|] ln IH]; intros p d H Hp; cbn [put_tokens numbers length] in *; try lia.
      unfold aset. destruct (Nat.ltb_spec p (length d)); [|reflexivity]. cbn [bind]. apply IH; rewrite upd_length; lia. }
    rewrite K by lia. reflexivity.
Qed.

(** [read] returns the numbers of all lines one after another, and counts the lines. *)
Theorem c52_text_all : forall (data : list T) lines, 1 <= length data ->
  length (concat (map numbers lines)) <= length data ->
  text_read data (lines, 0) =
    Ok (concat (map numbers lines) ++ skipn (length (concat (map numbers lines))) data, length lines).
Proof.
  intros data lines H Hl. unfold text_read. rewrite (proj2 (Nat.ltb_lt 0 (length data))) by lia.
  cbn [assert_ bind fst snd].
  assert (K : forall lines p n (d : list T), p + length (concat (map numbers lines)) <= length d ->
     text_read_from lines p d n =
     Ok (firstn p d ++ concat (map numbers lines) ++ skipn (p + length (concat (map numbers lines))) d, n + length lines)).
  { clear. induction lines as [|ln lines IH]; intros p n d H; cbn [text_read_from map concat length] in *.
    - rewrite !Nat.add_0_r. cbn [app]. rewrite firstn_skipn. reflexivity.
    - rewrite app_length in H. rewrite put_tokens_ok by lia. cbn [bind].
      assert (LF : length (firstn p d) = p) by (apply firstn_length_le; lia).
      rewrite IH.
      + rewrite app_length. f_equal. f_equal; [|lia].
        rewrite firstn_app, LF, firstn_firstn. rewrite Nat.min_r by lia.
        replace (p + length (numbers ln) - p) with (length (numbers ln)) by lia.
        rewrite firstn_app, Nat.sub_diag, firstn_O, app_nil_r, firstn_all.
        rewrite <- !app_assoc. do 3 f_equal.
        rewrite !skipn_app, LF.
        rewrite skipn_all2 by lia. cbn [app].
        rewrite skipn_all2 by lia. cbn [app].
        assert (SS : forall a b (l : list T), skipn a (skipn b l) = skipn (a + b) l).
        { clear. intros a b l. revert a l. induction b as [|b IH]; intros a l.
          - rewrite Nat.add_0_r. reflexivity.
          - destruct l as [|x l]; [rewrite !skipn_nil; reflexivity|].
            rewrite Nat.add_succ_r. cbn [skipn]. apply IH. }
        rewrite SS. f_equal. lia.
      + rewrite !app_length, LF, skipn_length. lia. }
  rewrite K by lia. reflexivity.
Qed.
End P.

(** Non-vacuity: a double is its eight bytes. *)
Definition word := { l : list byte | length l = 8 }.
Definition wenc (w : word) : list byte := proj1_sig w.
Definition wdec (l : list byte) : word :=
  match Nat.eq_dec (length l) 8 with
  | left e => exist _ l e
  | right _ => exist _ (repeat x00 8) eq_refl
  end.
Example c52_repr : repr_ok 8 wenc wdec.
Proof.
  constructor; [lia|intros (l & e); exact e|]. intros (l & e). unfold wdec, wenc. cbn [proj1_sig].
  destruct (Nat.eq_dec (length l) 8) as [e'|n]; [|contradiction]. f_equal. apply UIP_dec. apply Nat.eq_dec.
Qed.
Example c52_ex : exists f, bin_read_vec 8 wenc wdec true [wdec []; wdec []] 1 2
   (mkFile (bytes_of wenc [wdec (repeat x01 8); wdec (repeat x02 8)]) 0) =
   Ok ([wdec (repeat x01 8); wdec (repeat x02 8)], f).
Proof.
  destruct (@c52_read_all _ _ 8 wenc wdec c52_repr true [wdec (repeat x01 8); wdec (repeat x02 8)] [wdec []; wdec []] 1 2)
    as (f & E & _); cbn; try lia; auto. exists f. exact E.
Qed.
