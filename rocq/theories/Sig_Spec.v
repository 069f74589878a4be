(** Vocabulary for the signals. *)
From Verif Require Export Sig_Model Xds_Spec.
Local Open Scope string_scope.
Local Open Scope list_scope.

(** Simulated fields on columns, with levels along [lev]. *)
Record simulated (x : xds) (lev : string) (tot ze : nat -> nat -> nat -> nat -> xr)
    (sig tau : nat -> nat -> nat -> xr) (z : nat -> nat -> nat -> R) : Prop := {
  si_tot : exists v, assoc (all_vars x) "sub_col_beta_att_tot" = Some v /\ vdims v = ["subcolumn"; "time"; lev; "ncol"] /\
    forall i j l k, vat v [i; j; l; k] = tot i j l k;
  si_ze : exists v, assoc (all_vars x) "sub_col_Ze_att_tot" = Some v /\ vdims v = ["subcolumn"; "time"; lev; "ncol"] /\
    forall i j l k, vat v [i; j; l; k] = ze i j l k;
  si_sig : exists v, assoc (all_vars x) "sigma_180_vol" = Some v /\ vdims v = ["time"; lev; "ncol"] /\
    forall j l k, vat v [j; l; k] = sig j l k;
  si_tau : exists v, assoc (all_vars x) "tau" = Some v /\ vdims v = ["time"; lev; "ncol"] /\
    forall j l k, vat v [j; l; k] = tau j l k;
  si_z : exists v, assoc (all_vars x) "Z3" = Some v /\ vdims v = ["time"; lev; "ncol"] /\
    forall j l k, j < sz x "time" -> l < sz x lev -> k < sz x "ncol" -> vat v [j; l; k] = XF (z j l k);
  si_levels : 0 < sz x lev
}.
(** Height of the upper edge of a layer, km: halfway to the next level; the
    last level itself at the end. *)
Definition edge_km (n : nat) (z : nat -> R) (l : nat) : R :=
  if Nat.ltb (S l) n then ((z l + z (S l)) / 2 / 1000)%R else (z l / 1000)%R.
