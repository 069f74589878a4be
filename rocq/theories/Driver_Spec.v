(** What a complete model object provides to the driver. *)
From Verif Require Import Ds Spec_Common Gen_Spec QN_Spec.
Local Open Scope nat_scope.

(** A model object without subcolumns, whose hydrometeor classes [hs] (the
    keys of its convective-fraction dictionary) include liquid and ice cloud
    and at least one more, and with convection the standard precipitation
    classes; every class has fractions [F conv rad h] between 0 and 1, mixing
    ratios [Qv conv h] and number concentrations [Nf h], all of [T] times and
    [H] heights; no field bears the name of an output. *)
Record complete (m : mdl) (T H : nat) (hs : list string)
    (F : bool -> bool -> string -> list (list Q)) (Qv : bool -> string -> list (list Q))
    (Nf : string -> list (list Q)) : Prop := {
  co_T : 1 <= T /\ ntime m = T /\ unset m;
  co_classes : hs = map fst (frac_conv (nm m)) /\ NoDup hs;
  co_cloud : In "cl"%string hs /\ In "ci"%string hs;
  co_precip : exists h, In h hs /\ h <> "cl"%string /\ h <> "ci"%string;
  co_conv : process_conv m = true -> In "pl"%string hs /\ In "pi"%string hs;
  co_frac : forall c r h, In h hs -> field m (frac_dict m c r) h (F c r h) /\ shape2 T H (F c r h) /\ proportions (F c r h);
  co_q : forall c h, In h hs -> field m (q_dict m c) h (Qv c h) /\ shape2 T H (Qv c h);
  co_n : forall h, In h hs -> field m (n_field (nm m)) h (Nf h) /\ shape2 T H (Nf h);
  co_names : forall h c, not_input m (frac_out c h) /\ not_input m (q_out c h) /\ not_input m (n_out h)
}.

(** All subcolumn fields of class [h] are there, with [N] subcolumns. *)
Definition flags_for (m : mdl) (T H N : nat) (c : bool) (h : string) : Prop :=
  exists g, flags m (frac_out c h) g /\ shape3 T H N g.
Definition values_for (m : mdl) (T H N : nat) (name : string) : Prop :=
  exists g, values m name g /\ shape3 T H N g.

(** Only subcolumn outputs differ between [m] and [m']. *)
Definition out_name (x : string) : Prop := exists h c, x = frac_out c h \/ x = q_out c h \/ x = n_out h.
Definition only_outputs (m m' : mdl) : Prop :=
  ntime m' = ntime m /\ process_conv m' = process_conv m /\ nm m' = nm m /\
  forall x, ~ out_name x -> assoc (ds m') x = assoc (ds m) x.
