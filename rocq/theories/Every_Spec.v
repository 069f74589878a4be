(** Vocabulary for displays of every subcolumn. *)
From Verif Require Export Every_Model Curt_Spec.
Local Open Scope string_scope.
Local Open Scope list_scope.

(** A model with [n] subcolumns, [nt] times [c], [nl] levels at heights [h] in column [k0]. *)
Record columns_model (m : mobj) (zname : string) (col : Z) (n nt nl k0 : nat) (c : nat -> R) (h : nat -> nat -> R) : Prop := {
  cm_sizes : sz (mds m) "subcolumn" = n /\ sz (mds m) (time_dim m) = nt /\ sz (mds m) "lev" = nl;
  cm_many : 0 < n /\ 2 <= nt;
  cm_dims : In "subcolumn" (all_dims (mds m)) /\ In "lev" (all_dims (mds m));
  cm_clock : clock (mds m) (time_dim m) c;
  cm_col : indexes (sz (mds m) "ncol") col k0;
  cm_height : exists v, assoc (all_vars (mds m)) zname = Some v /\ vdims v = [time_dim m; "lev"; "ncol"] /\
    forall t j, t < nt -> j < nl -> vat v [t; j; k0] = XF (h t j)
}.
Definition field_of (m : mobj) (name : string) (f : nat -> nat -> nat -> nat -> xr) : Prop :=
  exists v, assoc (all_vars (mds m)) name = Some v /\ vdims v = ["subcolumn"; time_dim m; "lev"; "ncol"] /\ forall s t j k, vat v [s; t; j; k] = f s t j k.
(** The subcolumns of a time are drawn one after another between the
    previous time (or as long before the first) and that time. *)
Definition cell_time (c : nat -> R) (n t s : nat) : R :=
  (c t - (1 - INR (S s) / INR n) * (if Nat.eqb t O then c 1%nat - c O else c t - c (t - 1)%nat))%R.
Definition every_shows (p : epanel) (n nt nl : nat) (c : nat -> R) (h : nat -> nat -> R) (f : nat -> nat -> nat -> xr) : Prop :=
  e_rows p = nl /\ e_cols p = n * nt /\
  forall t s j, t < nt -> s < n -> j < nl ->
    e_x p (t * n + s) = XF (cell_time c n t s) /\ e_y p j (t * n + s) = XF (h t j / 1000) /\ e_val p j (t * n + s) = f s t j.
(** Missing values. *)
Definition missing (p : nat) (a : xr) : bool := match a with XF r => if Rle_dec r (- 10 ^ p) then true else false | XM => true | _ => false end.
Definition without (test : xr -> bool) (a : xr) : xr := if test a then XNaN else a.
Definition negative (a : xr) : bool := match a with XF r => if Rlt_dec r 0 then true else false | XM => true | _ => false end.
Definition limited (p : epanel) (log : bool) (lo hi : xr) : Prop := e_log p = log /\ e_lo p = lo /\ e_hi p = hi.
