(** Properties of the signals handed to the regridding. *)
From Coq Require Import Reals Lra.
From Verif Require Import Sig_Spec Sig_Proofs.
Local Open Scope string_scope.
Local Open Scope list_scope.

(** *** C115 *)
Theorem C115_signals : forall x lev tot ze sig tau z, simulated x lev tot ze sig tau z -> forall empty,
  exists s, get_radar_lidar_signals empty x = Ok s /\
  forall i j l k, i < sz x "subcolumn" -> j < sz x "time" -> l < sz x lev -> k < sz x "ncol" ->
    s_tot s i j l k = tot i j l k /\ s_ze s i j l k = ze i j l k /\ s_mol s i j l k = xmul (sig j l k) (tau j l k) /\
    s_z s j l k = XF (z j l k / 1000) /\ s_half s j l k = XF (edge_km (sz x lev) (fun l => z j l k) l).
Proof. exact signals_ok. Qed.
Print Assumptions C115_signals.

Definition w_dims4 := ["subcolumn"; "time"; "lev"; "ncol"].
Definition w_dims3 := ["time"; "lev"; "ncol"].
Definition num3 (ix : list nat) : R := INR (nth 0 ix 0 + 10 * nth 1 ix 0 + 100 * nth 2 ix 0).
Definition w_sim : xds := {| sz := fun d => if String.eqb d "lev" then 3 else 2; coords := [];
  vars := [("sub_col_beta_att_tot", {| vdims := w_dims4; vat := fun ix => XF (num3 (tl ix)) |});
           ("sub_col_Ze_att_tot", {| vdims := w_dims4; vat := fun ix => XF (INR (nth 0 ix 0)) |});
           ("sigma_180_vol", {| vdims := w_dims3; vat := fun ix => XF (num3 ix) |});
           ("tau", {| vdims := w_dims3; vat := fun ix => XF 1 |});
           ("Z3", {| vdims := w_dims3; vat := fun ix => XF (num3 ix) |})] |}.
Example C115_case : simulated w_sim "lev" (fun i j l k => XF (num3 [j; l; k])) (fun i _ _ _ => XF (INR i))
  (fun j l k => XF (num3 [j; l; k])) (fun _ _ _ => XF 1) (fun j l k => num3 [j; l; k]).
Proof. constructor; try (eexists; split; [reflexivity|]; split; reflexivity). cbn. lia. Qed.
