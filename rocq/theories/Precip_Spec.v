(** Specification vocabulary for precipitation placement, independent of the
    allocator.  A level is a list of flag lists, one per precipitation class. *)
From Coq Require Import List Bool ZArith.
From Verif Require Import Spec_Common Strat_Spec.
Local Open Scope Z_scope.

(** Subcolumn [i] holds precipitation of some class. *)
Definition some_precip (level : list (list bool)) (i : nat) : Prop :=
  exists s, In s level /\ flagged s i.

(** What one level of a generated precipitation profile must look like:
    [cs] requested subcolumn counts per class, [cloudy] the cloud flags of the
    level, [above] the next higher level of the result, [level] the result. *)
Record precip_spec (N : nat) (cs : list Z) (cloudy : list bool)
    (above level : list (list bool)) : Prop := {
  (* one flag per class and subcolumn *)
  ps_classes : length level = length cs;
  ps_width : forall s, In s level -> length s = N;
  (* each class occupies exactly the requested number of subcolumns *)
  ps_count : forall i, (i < length cs)%nat ->
    Z.of_nat (occ (nth i level nil)) = nth i cs 0;
  (* classes are maximally overlapped with each other *)
  ps_nested : forall i k, (i < length cs)%nat -> (k < length cs)%nat ->
    nth i cs 0 <= nth k cs 0 -> subset (nth i level nil) (nth k level nil);
  (* a class first continues precipitation falling from above *)
  ps_overlying : forall i, (i < length cs)%nat ->
    max_overlap (nth i level nil) (nth i cs 0) (some_precip above);
  (* and then prefers cloudy subcolumns to clear ones *)
  ps_cloudy : forall i, (i < length cs)%nat ->
    max_overlap (nth i level nil) (nth i cs 0)
                (fun k => some_precip above k \/ flagged cloudy k)
}.
