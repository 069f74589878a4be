(** Vocabulary for the statements about the forward calculations: sums,
    cells, what a dataset variable holds, and which variables changed. *)
From Verif Require Import Mom_Base.
Local Open Scope R_scope.

(** [f 0 + ... + f (n-1)]. *)
Fixpoint sumR (f : nat -> R) (n : nat) : R :=
  match n with O => 0 | S m => sumR f m + f m end.

(** [f x1 + ... + f xn] over a list. *)
Definition sum_over {A} (l : list A) (f : A -> R) : R := fold_right (fun x r => f x + r) 0 l.

(** Indices of an existing (subcolumn, time, height) cell, and of an
    existing (time, height) point. *)
Definition cell (e : menv) (i t k : nat) : Prop :=
  (i < nsub e)%nat /\ (t < ntm e)%nat /\ (k < nht e)%nat.
Definition point (e : menv) (t k : nat) : Prop := (t < ntm e)%nat /\ (k < nht e)%nat.

(** A dataset variable exists with the given values. *)
Definition var3 (s : dset) (name : string) (a : arr3) : Prop := assoc (dvars s) name = Some (V3 a).
Definition var2 (s : dset) (name : string) (g : arr2) : Prop := assoc (dvars s) name = Some (V2 g).
Definition varb (s : dset) (name : string) (b : nat -> nat -> nat -> bool) : Prop :=
  assoc (dvars s) name = Some (VB b).

(** It holds the real number [f i t k] in every cell. *)
Definition real3 (e : menv) (s : dset) (name : string) (f : nat -> nat -> nat -> R) : Prop :=
  exists a, var3 s name a /\ forall i t k, cell e i t k -> a i t k = XF (f i t k).
Definition real2 (e : menv) (s : dset) (name : string) (f : nat -> nat -> R) : Prop :=
  exists g, var2 s name g /\ forall t k, point e t k -> g t k = XF (f t k).

(** The value of a variable in a cell (NaN when there is no such variable). *)
Definition value (s : dset) (name : string) (i t k : nat) : xr :=
  match assoc (dvars s) name with Some (V3 a) => a i t k | _ => XNaN end.

(** Only the listed variables differ. *)
Definition unchanged_except (names : list string) (s s' : dset) : Prop :=
  forall x, ~ In x names -> assoc (dvars s') x = assoc (dvars s) x.

(** The two datasets hold the same variables with the same values. *)
Definition same_value (a b : option mv) : Prop :=
  match a, b with
  | None, None => True
  | Some (V2 f), Some (V2 g) => forall t k, f t k = g t k
  | Some (V3 f), Some (V3 g) => forall i t k, f i t k = g i t k
  | Some (VB f), Some (VB g) => forall i t k, f i t k = g i t k
  | _, _ => False
  end.
Definition same_data (s s' : dset) : Prop :=
  forall x, same_value (assoc (dvars s) x) (assoc (dvars s') x).
