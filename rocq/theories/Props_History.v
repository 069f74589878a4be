(** Histories of generation calls: properties C03, C20 and C53. *)
From Verif Require Import History_Model Spec_Common Gen_Spec QN_Spec History_Spec History_Proofs Witness.
Local Open Scope nat_scope.

(** C03. *)
Theorem C03_number_of_subcolumns_fixed :
  forall cs m, num_sub m <> 0 ->
  num_sub (history cs m) = num_sub m /\
  (forall hyd n rad thr, n <> num_sub m ->
     set_convective hyd (Some n) rad thr (history cs m) = (Raise ValueError, history cs m)) /\
  (forall is_conv n rad sch hs thr dr,
     set_precip is_conv (Some n) rad sch hs thr dr (history cs m) = (Raise ValueError, history cs m)).
Proof. exact number_fixed. Qed.
Print Assumptions C03_number_of_subcolumns_fixed.

Example C03_witness :
  let cs := [Conv "cl" (Some 4) false 0%Q; Conv "ci" None false 0%Q; Strat None false Serial 0%Q w_dr;
             Precip false None false Serial ["pl"]%string 0%Q w_dr; Conv "cl" (Some 3) false 0%Q;
             Strat (Some 7) false Serial 0%Q w_dr] in
  num_sub (w_m true) = 0 /\ num_sub (history [Conv "cl" (Some 4) false 0%Q] (w_m true)) = 4 /\
  num_sub (history cs (w_m true)) = 4 /\ w_flags (history cs (w_m true)) "strat_frac_subcolumns_pl" <> [].
Proof. repeat split; vm_compute; try reflexivity. discriminate. Qed.

(** C53. *)
Theorem C53_calls_change_only_their_outputs :
  forall c m, unchanged_except (writes c) m (snd (run_call c m)).
Proof. exact call_changes_only. Qed.
Print Assumptions C53_calls_change_only_their_outputs.

Theorem C53_history_changes_only_outputs :
  forall cs m x, (forall c, In c cs -> ~ In x (writes c)) -> assoc (ds (history cs m)) x = assoc (ds m) x.
Proof. exact history_changes_only. Qed.
Print Assumptions C53_history_changes_only_outputs.

(** C20.  Not included, because false of the code: a missing liquid field
    should raise KeyError, and every failed call should leave the dataset
    unchanged. *)
Theorem C20_order_enforced_partial :
  forall m,
  (forall n r s t dr, process_conv m = true ->
     (assoc (ds m) "conv_frac_subcolumns_cl" = None \/ assoc (ds m) "conv_frac_subcolumns_ci" = None) ->
     set_stratiform n r s t dr m = (Raise KeyError, m)) /\
  (forall c r s hs t dr, num_sub m = 0 -> set_precip c None r s hs t dr m = (Raise RuntimeError, m)) /\
  (forall c r s hs t dr T H F Qv, num_sub m <> 0 -> (forall h, In h hs -> frac_input m c r T H F Qv h) ->
     assoc (ds m) (frac_out c "ci") = None -> set_precip c None r s hs t dr m = (Raise KeyError, m)) /\
  (forall h c qc r s t p g, num_sub m = 0 -> set_q_n h c qc r s t p g m = (Raise RuntimeError, m)).
Proof. exact order_enforced. Qed.
Print Assumptions C20_order_enforced_partial.

Example C20_witness :
  process_conv (w_m true) = true /\ assoc (ds (w_m true)) "conv_frac_subcolumns_cl" = None /\ num_sub (w_m true) = 0 /\
  num_sub w_mc = 4 /\ assoc (ds w_mc) (frac_out false "ci") = None /\
  frac_input w_mc false false 2 3 (fun _ => w_f2) (fun _ => w_q) "pl".
Proof.
  repeat split; try (vm_compute; reflexivity); try discriminate.
  - exists "cf_pl"%string. split; vm_compute; reflexivity.
  - apply w_f2_shape.
  - apply (w_f2_prop r H f H0).
  - apply (w_f2_prop r H f H0).
Qed.

(** A missing liquid field is reported as TypeError. *)
Theorem C20_missing_liquid_refuted :
  exists m, num_sub m = 4 /\ assoc (ds m) (frac_out false "cl") = None /\ assoc (ds m) (frac_out false "ci") <> None /\
    frac_input m false false 2 3 (fun _ => w_f2) (fun _ => w_q) "pl" /\
    forall r sch thr dr, fst (set_precip false None r sch ["pl"]%string thr dr m) = Raise TypeError.
Proof.
  exists {| ds := w_ds ++ [("strat_frac_subcolumns_ci"%string, VFlag (w_flags w_ms "strat_frac_subcolumns_ci"))];
            dim_sub := Some 4; ntime := 2; process_conv := true; nm := w_names |}.
  split; [reflexivity|]. split; [reflexivity|]. split; [discriminate|].
  split. { split; [exists "cf_pl"%string; split; reflexivity|]. split; [apply w_f2_shape|]. split; [apply w_f2_prop|discriminate]. }
  intros [] sch thr dr; reflexivity.
Qed.
Print Assumptions C20_missing_liquid_refuted.

(** A failed call can leave the object changed: precipitation generation on an
    object without cloud subcolumns sets the number of subcolumns and fails. *)
Theorem C20_failed_call_unchanged_refuted :
  exists m m', set_precip false (Some 4) false Serial ["pl"]%string 0%Q w_dr m = (Raise KeyError, m') /\
    num_sub m = 0 /\ num_sub m' = 4.
Proof. exists (w_m false). eexists. split; [vm_compute; reflexivity|]. split; reflexivity. Qed.
Print Assumptions C20_failed_call_unchanged_refuted.
