(** Specification vocabulary: sizes of the subcolumn fields of an object. *)
From Verif Require Export Ds.
Local Open Scope nat_scope.

(** A field given for every time, with [n] subcolumns at every time and level. *)
Definition sized {A} (T n : nat) (g : list (list (list A))) : Prop :=
  length g = T /\ forall row, In row g -> forall cell, In cell row -> length cell = n.

Definition val_sized (T n : nat) (v : val) : Prop :=
  match v with VGrid _ => True | VFlag g => sized T n g | VSub g => sized T n g end.

(** Every field with subcolumns has as many of them as the object has. *)
Definition sizes_agree (m : mdl) : Prop :=
  forall x v, In (x, v) (ds m) -> match v with VGrid _ => True | _ => exists n, dim_sub m = Some n /\ val_sized (ntime m) n v end.

Definition has_subcolumn_field (m : mdl) : Prop :=
  exists x v, In (x, v) (ds m) /\ match v with VGrid _ => False | _ => True end.
