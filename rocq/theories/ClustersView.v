(** What a user observes of a cluster container: per cluster the centroid (or
    running sum), the member count and the completeness flag. *)
From Verif Require Import Base Num ClustersModel.
Set Implicit Arguments.

Section View.
Variable N : Num.
Notation T := (car N).
Notation clusters := (clusters N).

(** well-formed container: vectors have the declared sizes *)
Definition cwf (c : clusters) : Prop :=
  length (c_means c) = c_nclust c * c_ncol c /\
  length (c_members c) = c_nclust c /\ length (c_complete c) = c_nclust c.

(** clusters.hpp:56-60 get_means / operator[] restricted to one cluster *)
Definition crow (c : clusters) (i : nat) : list T := row (c_means c) (c_ncol c) i.
(** clusters.hpp get_num_members(i), is_complete(i) *)
Definition cnum (c : clusters) (i : nat) : Z := nth i (c_members c) 0%Z.
Definition cdone (c : clusters) (i : nat) : bool := nth i (c_complete c) false.
Definition cel (c : clusters) (i : nat) : list T * Z * bool := (crow c i, cnum c i, cdone c i).

(** [nclust] clusters of dimension [ncol], well formed *)
Definition shaped (nclust ncol : nat) (c : clusters) : Prop :=
  c_nclust c = nclust /\ c_ncol c = ncol /\ cwf c.

End View.
