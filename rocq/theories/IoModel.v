(** Model of the random streams (libkcommon/util.hpp:168-234) and of the matrix
    files (libkcommon/io.hpp, libkcommon/io.cpp). *)
From Verif Require Import Base.
Set Implicit Arguments.
Unset Strict Implicit.

(* ------------------------------------------------------------------ *)
(** * Random streams *)
Section Rng.
(** the state of [std::default_random_engine], and one call [dist(gen)]: the
    drawn number and the next state.  Engine and distribution are values, so
    two generators built with the same seed do not influence each other. *)
Variables (G T : Type) (draw : G -> T * G).

(** n calls whose results are thrown away: util.hpp:196-199, 218-221 *)
Fixpoint discard (n : nat) (g : G) : G :=
  match n with 0 => g | S k => discard k (snd (draw g)) end.

(** mpi_random_generator: constructor and init, util.hpp:186-199 *)
Definition mpig_new (seeded : G) (rank : nat) : G := discard rank seeded.
(** next(), util.hpp:201-206; [_nprocs - 1] is size_t arithmetic: for
    [nprocs = 0] the loop would run 2^64 - 1 times, not modelled *)
Definition mpig_next (nprocs : nat) (g : G) : T * G :=
  let (ret, g) := draw g in (ret, discard (nprocs - 1) g).

(** rand123emulator: constructor (util.hpp:224-229) and next() (231-233) *)
Definition r123_new (seeded : G) (nskip : nat) : G := discard nskip seeded.
Definition r123_next (g : G) : T * G := draw g.

(** the results of n successive calls of a generator *)
Fixpoint take (next : G -> T * G) (n : nat) (g : G) : list T :=
  match n with 0 => [] | S k => let (x, g) := next g in x :: take next k g end.
End Rng.

(* ------------------------------------------------------------------ *)
(** * Files *)
Section File.
(** B: bytes.  An object of type T has [sz] bytes. *)
Variables (B T : Type) (sz : nat) (enc : T -> list B) (dec : list B -> T).

(** an open file: contents, position *)
Record file := mkFile { content : list B; pos : nat }.

Definition bytes_of (l : list T) : list B := concat (map enc l).
(** the objects stored in a buffer of n * sz bytes *)
Fixpoint objects_of (n : nat) (bs : list B) : list T :=
  match n with 0 => [] | S k => dec (firstn sz bs) :: objects_of k (skipn sz bs) end.

(** C library [fread(buf, size, 1, f)] into a typed buffer: as many bytes as
    there are, up to [size], overwrite the front of the buffer; the result is
    true iff all of them were read (and size > 0).  A buffer smaller than
    [size] is undefined behaviour. *)
Definition fread1 (buf : list T) (size : nat) (f : file) : res (bool * list T * file) :=
  let bs := bytes_of buf in
  if length bs <? size then Err UB
  else
    let got := firstn size (skipn (pos f) (content f)) in
    let bs' := got ++ skipn (length got) bs in
    Ok ((1 <=? size) && (length got =? size), objects_of (length buf) bs',
        mkFile (content f) (pos f + length got)).

(** C library [fwrite(data + off, sz * numel, 1, f)] on a file being written at
    its end (mode "wb"/"ab"; a full disk is not modelled) *)
Definition fwrite1 (data : list T) (off numel : nat) (f : file) : res (bool * file) :=
  if length data <? off + numel then Err UB
  else Ok (1 <=? sz * numel,
           mkFile (content f ++ bytes_of (slice data off numel)) (pos f + sz * numel)).

(** [assert(e)]: with NDEBUG the code evaluates the call without the check *)
Definition checked (ndebug b : bool) : res unit := if ndebug || b then Ok tt else Err Abort.

(** ** bin_io (io.hpp:260-370).  The object is (file, nrow, ncol). *)
Section BinIo.
Variable ndebug : bool.

(** io.hpp:337-343 (and 345-347) *)
Definition bin_write (data : list T) (numel : nat) (f : file) : res file :=
  let* (ok, f) := fwrite1 data 0 numel f in
  let* _ := checked ndebug ok in Ok f.
(** io.hpp:297-306: a fresh vector, value-initialised with [zero] *)
Definition bin_readline (zero : T) (ncol : nat) (f : file) : res (list T * file) :=
  let* (ok, v, f) := fread1 (repeat zero ncol) (sz * ncol) f in
  let* _ := checked ndebug ok in Ok (v, f).
(** io.hpp:308-314 *)
Definition bin_readline_to (v : list T) (ncol : nat) (f : file) : res (list T * file) :=
  let* (ok, v, f) := fread1 v (sz * ncol) f in
  let* _ := checked ndebug ok in Ok (v, f).
(** io.hpp:317-325; with NDEBUG a short read throws *)
Definition bin_read_vec (v : list T) (nrow ncol : nat) (f : file) : res (list T * file) :=
  let* (ok, v, f) := fread1 v (sz * ncol * nrow) f in
  if ok then Ok (v, f) else Err (if ndebug then Throw else Abort).
(** io.hpp:328-334 *)
Definition bin_read_ptr (v : list T) (nrow ncol : nat) (f : file) : res (list T * file) :=
  let* (ok, v, f) := fread1 v (sz * ncol * nrow) f in
  let* _ := checked ndebug ok in Ok (v, f).
(** io.hpp:349-351 [operator bool] *)
Definition bin_more (nrow ncol : nat) (f : file) : bool := negb (pos f =? nrow * ncol * sz).
End BinIo.

(** ** bin_rm_reader (io.hpp:210-252).  State: file, whether the stream is still
    good, lines read.  A failed read sets failbit, after which every read fails
    without touching the buffer. *)
Record rmr := mkRmr { rm_file : file; rm_good : bool; rm_nrow : nat }.
Definition rm_open (c : list B) : rmr := mkRmr (mkFile c 0) true 0.
(** [f.read(buf, size)]; succeeds also for size 0 *)
Definition istream_read (buf : list T) (size : nat) (r : rmr) : res (bool * list T * rmr) :=
  if rm_good r then
    let* (_, buf', f) := fread1 buf size (rm_file r) in
    let ok := pos f - pos (rm_file r) =? size in
    Ok (ok, buf', mkRmr f ok (rm_nrow r))
  else Ok (false, buf, r).
(** io.hpp:221-225 *)
Definition rm_read (data : list T) (r : rmr) : res (list T * rmr) :=
  let* _ := assert_ (0 <? length data) in
  let* (_, data, r) := istream_read data (length data * sz) r in Ok (data, r).
(** io.hpp:227-243; [ncol] as set by set_ncol *)
Definition rm_readline (ncol : nat) (data : list T) (r : rmr) : res (bool * list T * rmr) :=
  let* _ := assert_ (0 <? ncol) in
  let* (ok, data, r) := istream_read data (length data * sz) r in
  Ok (ok, data, if ok then mkRmr (rm_file r) (rm_good r) (S (rm_nrow r)) else r).

(** ** store_cluster (io.cpp:24-60): the bytes of the file it writes *)
Definition store_cluster (ndebug : bool) (id : nat) (data : list T) (numel : nat)
    (asg : list nat) (nrow ncol : nat) : res (list B) :=
  let* (f, count) :=
    loop nrow (fun i st =>
      let '(f, count) := st in
      if count =? numel then Ok st          (* break: no later iteration does anything *)
      else
        let* a := aget asg i in
        if a =? id then
          let* (ok, f) := fwrite1 data (i * ncol) ncol f in
          let* _ := checked ndebug ok in Ok (f, S count)
        else Ok st) (mkFile [] 0, 0) in
  let* _ := checked ndebug (count =? numel) in
  Ok (content f).

(** ** text_reader (io.hpp:165-208).  A text file is the list of its remaining
    lines, a line the list of its tokens, [None] one that is not a number:
    [ss >> number] stops there. *)
Fixpoint put_tokens (ts : list (option T)) (p : nat) (data : list T) : res (list T * nat) :=
  match ts with
  | Some x :: ts => let* data := aset data p x in put_tokens ts (S p) data
  | _ => Ok (data, p)
  end.
(** io.hpp:193-207; state: (lines left, nrow) *)
Definition text_readline (data : list T) (st : list (list (option T)) * nat)
  : res (bool * list T * (list (list (option T)) * nat)) :=
  let* _ := assert_ (0 <? length data) in
  match fst st with
  | [] => Ok (false, data, st)
  | ln :: rest => let* (data, _) := put_tokens ln 0 data in Ok (true, data, (rest, S (snd st)))
  end.
(** io.hpp:172-186 *)
Fixpoint text_read_from (lines : list (list (option T))) (p : nat) (data : list T) (n : nat)
  : res (list T * nat) :=
  match lines with
  | [] => Ok (data, n)
  | ln :: rest => let* (data, p) := put_tokens ln p data in text_read_from rest p data (S n)
  end.
Definition text_read (data : list T) (st : list (list (option T)) * nat) : res (list T * nat) :=
  let* _ := assert_ (0 <? length data) in text_read_from (fst st) 0 data (snd st).
End File.
