(** A reader for the result file: the part of YAML it uses (block mapping of
    seven keys; flow sequences of numbers, and of such sequences).  Written
    without reference to the writer. *)
From Coq Require Import String Ascii DecimalString List ZArith.
Import ListNotations.

Definition chars := list ascii.

(** the pieces of [l] between the separators [c] *)
Fixpoint split (c : ascii) (l : chars) : list chars :=
  match l with
  | [] => [[]]
  | x :: t => match split c t with
              | [] => [[]]
              | p :: ps => if Ascii.eqb x c then [] :: p :: ps else (x :: p) :: ps
              end
  end.
(** [l] without the prefix [p] *)
Fixpoint after (p l : chars) : option chars :=
  match p, l with
  | [], _ => Some l
  | x :: p', y :: l' => if Ascii.eqb x y then after p' l' else None
  | _, _ => None
  end.
Fixpoint all_some {A} (l : list (option A)) : option (list A) :=
  match l with
  | [] => Some []
  | Some x :: t => option_map (cons x) (all_some t)
  | None :: _ => None
  end.
(** a sequence of items between the brackets of [l]: empty, or separated by commas *)
Definition items {A} (item : chars -> option A) (l : chars) : option (list A) :=
  match l with [] => Some [] | _ => all_some (map item (split "," l)) end.

Definition natural (l : chars) : option nat := option_map Nat.of_uint (NilZero.uint_of_string (string_of_list_ascii l)).
Definition integer (l : chars) : option Z := option_map Z.of_int (NilZero.int_of_string (string_of_list_ascii l)).
Definition word (l : chars) : option chars := Some l.

(** "key: value" *)
Definition field {A} (key : string) (value : chars -> option A) (l : chars) : option A :=
  match after (list_ascii_of_string key ++ [":"%char; " "%char]) l with Some v => value v | None => None end.
(** "[" items "]" *)
Definition bracketed {A} (f : chars -> option A) (l : chars) : option A :=
  match l with
  | c :: t => if Ascii.eqb c "[" then
                match split "]" t with [body; []] => f body | _ => None end
              else None
  | [] => None
  end.
(** "[" ("[" items "]" separated by commas) "]": the pieces between closing
    brackets are "[items", ",[items", ..., then "" and "" after the last two *)
Fixpoint rows (ps : list chars) (first : bool) : option (list (list chars)) :=
  match ps with
  | [[]; []] => Some []
  | p :: t => match after (if first then ["["%char] else [","%char; "["%char]) p with
              | Some body => match items word body, rows t false with Some r, Some rs => Some (r :: rs) | _, _ => None end
              | None => None
              end
  | [] => None
  end.
Definition matrix (l : chars) : option (list (list chars)) :=
  match l with
  | c :: t => if Ascii.eqb c "[" then rows (split "]" t) true else None
  | [] => None
  end.

Record file := mkFile { f_k : nat; f_niter : nat; f_nsamples : nat; f_dim : nat;
  f_size : list Z; f_cluster : list nat; f_centroids : list (list chars) }.

(** seven lines, each ended by a newline *)
Definition read_result (l : chars) : option file :=
  match split (ascii_of_nat 10) l with
  | [l1; l2; l3; l4; l5; l6; l7; []] =>
    match field "k" natural l1, field "niter" natural l2, field "nsamples" natural l3, field "dim" natural l4,
          field "size" (bracketed (items integer)) l5, field "cluster" (bracketed (items natural)) l6, field "centroids" matrix l7 with
    | Some a, Some b, Some c, Some d, Some e, Some f, Some g => Some (mkFile a b c d e f g)
    | _, _, _, _, _, _, _ => None
    end
  | _ => None
  end.
