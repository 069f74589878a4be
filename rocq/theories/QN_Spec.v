(** Specification vocabulary for the distribution of mixing ratio and number
    concentration over the subcolumns. *)
From Verif Require Import Ds Spec_Common Gen_Spec.
Local Open Scope nat_scope.

(** Names of the outputs. *)
Definition q_out (is_conv : bool) (h : string) : string :=
  ((if is_conv then "conv" else "strat") ++ "_q_subcolumns_" ++ h)%string.
Definition n_out (h : string) : string := ("strat_n_subcolumns_" ++ h)%string.

(** Everything the distribution of type [h] needs: fractions [f] of the chosen
    logic, mixing ratios [q], for stratiform types number concentrations [nf],
    and the flags [fl] of the subcolumns holding the type. *)
Definition qn_ready (m : mdl) (is_conv rad : bool) (N T H : nat) (h : string)
    (f q nf : list (list Q)) (fl : list (list (list bool))) : Prop :=
  1 <= N /\ 1 <= T /\ ntime m = T /\ dim_sub m = Some N /\
  field m (frac_dict m is_conv rad) h f /\ shape2 T H f /\
  field m (q_dict m is_conv) h q /\ shape2 T H q /\
  (is_conv = false -> field m (n_field (nm m)) h nf /\ shape2 T H nf) /\
  flags m (frac_out is_conv h) fl /\ shape3 T H N fl.

(** The in-cloud mixing ratio of a cell: 0 when [q] is not above the
    threshold, else [q / f], infinite for a positive [q] over fraction 0. *)
Definition in_cloud (thr q f : Q) (v : xq) : Prop :=
  ((q <= thr)%Q -> v =x= Fin 0) /\
  ((thr < q)%Q -> ~ (f == 0)%Q -> v =x= Fin (q / f)) /\
  ((thr < q)%Q -> (0 < q)%Q -> (f == 0)%Q -> v =x= PInf).

(** Number concentration over the (effective) fraction: [n / f], 0 for 0/0,
    infinite for a positive [n] over fraction 0. Under radiation logic the
    effective fraction is 0 where [q] is not above the threshold. *)
Definition in_cloud_n (rad : bool) (thr q f n : Q) (v : xq) : Prop :=
  let none := (rad = true /\ (q <= thr)%Q) \/ (f == 0)%Q in
  (~ none -> v =x= Fin (n / f)) /\
  (none -> (n == 0)%Q -> v =x= Fin 0) /\
  (none -> (0 < n)%Q -> v =x= PInf).

(** The entries of [l] are numbers with sum [s]. *)
Definition sums_to (l : list xq) (s : Q) : Prop :=
  exists qs, l = map Fin qs /\ (fold_right Qplus 0 qs == s)%Q.

(** Random draws of the variable distribution: permutations, and as many
    non-negative numbers as the cell has subcolumns holding the type. *)
Definition perms_ok (p : nat -> nat -> nat -> list nat) : Prop := forall t j n, is_perm (p t j n) n.
Definition gammas_ok (T H : nat) (fl : list (list (list bool))) (g : nat -> nat -> list xq) : Prop :=
  forall t j, t < T -> j < H -> exists gs, g t j = map Fin gs /\ length gs = occ (at2 [] fl t j) /\
    forall x, In x gs -> (0 <= x)%Q.

(** The type is only present where its fraction is positive. *)
Definition present_where_fraction (T H : nat) (f : list (list Q)) (fl : list (list (list bool))) : Prop :=
  forall t j i, t < T -> j < H -> flagged (at2 [] fl t j) i -> (0 < at2 0%Q f t j)%Q.

Definition inject (n : nat) : Q := inject_Z (Z.of_nat n).
