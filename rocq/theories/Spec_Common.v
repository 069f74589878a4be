(** Vocabulary shared by the specifications: how many entries of a boolean
    array are set, and inclusion of one boolean array in another.  A boolean
    array over the subcolumns is read as the set of subcolumns it flags. *)
From Coq Require Import List Bool Permutation.

(** Number of subcolumns flagged. *)
Definition occ (l : list bool) : nat := count_occ Bool.bool_dec l true.

(** Subcolumn [i] is flagged. *)
Definition flagged (l : list bool) (i : nat) : Prop := nth i l false = true.

(** Every subcolumn flagged in [a] is flagged in [b]. *)
Definition subset (a b : list bool) : Prop := forall i, flagged a i -> flagged b i.

(** [p] is a permutation of 0..n-1 (what [np.random.permutation(n)] returns). *)
Definition is_perm (p : list nat) (n : nat) : Prop := Permutation p (seq 0 n).

(** [n] is the number of subcolumns satisfying [P]. *)
Definition number_of (P : nat -> Prop) (n : nat) : Prop :=
  exists L, NoDup L /\ length L = n /\ forall i, In i L <-> P i.
