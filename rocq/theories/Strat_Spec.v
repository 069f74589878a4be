(** Specification vocabulary for stratiform cloud placement, independent of
    the allocator.  A level is a pair (liquid flags, ice flags) over the
    subcolumns. *)
From Coq Require Import List Bool ZArith.
From Verif Require Import Spec_Common.
Local Open Scope Z_scope.

(** Subcolumn [i] has cloud of any type just above and no convection here. *)
Definition below_cloud (above_cl above_ci conv : list bool) (i : nat) : Prop :=
  (flagged above_cl i \/ flagged above_ci i) /\ ~ flagged conv i.

(** Number of subcolumns without convection. *)
Definition avail (conv : list bool) : Z := Z.of_nat (length conv) - Z.of_nat (occ conv).

(** Continuation of overlying cloud is maximal: a type that needs no more
    subcolumns than there are below cloud stays below cloud; one that needs
    at least as many covers all of them. *)
Definition max_overlap (s : list bool) (c : Z) (P : nat -> Prop) : Prop :=
  forall n, number_of P n ->
    (c <= Z.of_nat n -> forall i, flagged s i -> P i) /\
    (Z.of_nat n <= c -> forall i, P i -> flagged s i).
