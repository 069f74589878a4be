(** Properties of displays of every subcolumn, of CFADs, and of the saved dataset. *)
From Coq Require Import Reals Lra ZArith.
From Verif Require Import Disp_Wit Load_Facts Every_Model Every_Spec Every_Facts Every_Thm Every_More Every_Wit.
Local Open Scope string_scope.
Local Open Scope list_scope.

(** *** C124: every subcolumn of every time at its height, in order of time *)
Theorem C124_signals : forall m zname col n nt nl k0 c h, columns_model m zname col n nt nl k0 c h ->
  forall ze be radar lidar w, field_of m "sub_col_Ze_tot" ze -> field_of m "sub_col_beta_p_tot" be -> k_min w = None -> k_max w = None ->
  exists x' p1 p2, every_nonatt m zname col radar lidar w = (x', Ok [p1; p2]) /\
    every_shows p1 n nt nl c h (fun s t j => without (missing 20) (ze s t j k0)) /\ limited p1 false (fst radar) (snd radar) /\
    every_shows p2 n nt nl c h (fun s t j => without (missing 40) (be s t j k0)) /\ limited p2 true (fst lidar) (snd lidar).
Proof. exact nonatt_ok. Qed.
Print Assumptions C124_signals.
Theorem C124_attenuated : forall m zname col n nt nl k0 c h, columns_model m zname col n nt nl k0 c h ->
  forall ze be radar lidar w, field_of m "sub_col_Ze_att_tot" ze -> field_of m "sub_col_beta_att_tot" be -> k_max w = None ->
  exists x' p1 p2, every_signal m zname col radar lidar w = (x', Ok [p1; p2]) /\
    every_shows p1 n nt nl c h (fun s t j => without (missing 20) (ze s t j k0)) /\ limited p1 false (XF (-50)) (XF 10) /\
    every_shows p2 n nt nl c h (fun s t j => without (missing 40) (be s t j k0)) /\ limited p2 true (XF (1 / 10 ^ 8)) (XF (1 / 10 ^ 3)).
Proof. exact signal_ok. Qed.
Print Assumptions C124_attenuated.
Theorem C124_ratio : forall m zname col n nt nl k0 c h, columns_model m zname col n nt nl k0 c h ->
  forall tot mol w nc, k0 < nc ->
  exists p, every_SR m zname (array4 n nt nl nc tot) (array4 n nt nl nc mol) col w = Ok p /\
    every_shows p n nt nl c h (fun s t j => without (missing 40) (xdiv (tot s t j k0) (mol s t j k0))) /\
    limited p false (match k_min w with Some a => a | None => XF 0 end) (match k_max w with Some a => a | None => XF 0 end).
Proof. exact SR_ok. Qed.
Print Assumptions C124_ratio.
Theorem C124_mixing_ratios : forall m zname col n nt nl k0 c h, columns_model m zname col n nt nl k0 c h ->
  forall qf, (forall name, In name ["strat_q_subcolumns_cl"; "strat_q_subcolumns_ci"; "strat_q_subcolumns_pl"; "strat_q_subcolumns_pi"] -> field_of m name (qf name)) ->
  forall w, exists x' ps, every_mixing m zname col w = (x', Ok ps) /\
  Forall2 (fun name p => every_shows p n nt nl c h (fun s t j => xmul (without not_positive (qf name s t j k0)) (XF 1000)) /\
    limited p false (match k_min w with Some a => a | None => XF 0 end) (match k_max w with Some a => a | None => XF (1 / 10) end))
    ["strat_q_subcolumns_cl"; "strat_q_subcolumns_ci"; "strat_q_subcolumns_pl"; "strat_q_subcolumns_pi"] ps.
Proof. exact mixing_ok. Qed.
Print Assumptions C124_mixing_ratios.
Theorem C124_cloud_precipitation : forall m zname col n nt nl k0 c h, columns_model m zname col n nt nl k0 c h ->
  forall qf, (forall name, In name ["strat_q_subcolumns_cl"; "strat_q_subcolumns_ci"; "strat_q_subcolumns_pl"; "strat_q_subcolumns_pi"] -> field_of m name (qf name)) ->
  forall w, exists p r, every_cloud_precip m zname col w = Ok [p; r] /\
  every_shows p n nt nl c h (fun s t j => xmul (without negative (xadd (qf "strat_q_subcolumns_cl" s t j k0) (qf "strat_q_subcolumns_ci" s t j k0))) (XF 1000)) /\
  limited p false (match k_min w with Some a => a | None => XF 0 end) (match k_max w with Some a => a | None => XF (1 / 10) end) /\
  every_shows r n nt nl c h (fun s t j => xmul (without negative (xadd (qf "strat_q_subcolumns_pl" s t j k0) (qf "strat_q_subcolumns_pi" s t j k0))) (XF 1000)) /\
  limited r false (XF 0) (XF (1 / 10)).
Proof. exact cloud_precip_ok. Qed.
Print Assumptions C124_cloud_precipitation.
Theorem C124_cell_times : forall c n t s, s < n -> (forall i j, i < j -> (c i < c j)%R) ->
  (cell_time c n t s <= c t)%R /\ (0 < t -> (c (t - 1)%nat < cell_time c n t s)%R) /\ (S s = n -> cell_time c n t s = c t).
Proof. exact cell_time_between. Qed.
Print Assumptions C124_cell_times.
Example C124_case : columns_model (ev_m 3) "z3" (-1) 3 2 2 0 INR w_y /\ field_of (ev_m 3) "sub_col_Ze_tot" ev_f /\ field_of (ev_m 3) "sub_col_beta_p_tot" ev_f /\
  field_of (ev_m 3) "sub_col_Ze_att_tot" ev_f /\ field_of (ev_m 3) "sub_col_beta_att_tot" ev_f /\
  (forall name, In name ["strat_q_subcolumns_cl"; "strat_q_subcolumns_ci"; "strat_q_subcolumns_pl"; "strat_q_subcolumns_pi"] -> field_of (ev_m 3) name ev_f) /\
  missing 20 (ev_f 0 0 0 0) = true.
Proof.
  split; [apply ev_model; lia|]. split; [apply ev_fields; simpl; auto|]. split; [apply ev_fields; simpl; auto|]. split; [apply ev_fields; simpl; auto|].
  split; [apply ev_fields; simpl; auto|]. split; [|exact (proj1 ev_missing)]. intros name I. apply ev_fields. apply (in_or_app _ q_fields). right. exact I.
Qed.

(** *** C125: displaying every subcolumn leaves the model's fields *)
Theorem C125_kept_partial : forall m zname col, sz (mds m) "subcolumn" <> 1 -> forall radar lidar w,
  fst (every_signal m zname col radar lidar w) = mds m /\ fst (every_nonatt m zname col radar lidar w) = mds m /\ fst (every_mixing m zname col w) = mds m.
Proof. exact data_kept. Qed.
Print Assumptions C125_kept_partial.
Theorem C125_one_subcolumn_refuted : forall m zname col n nt nl k0 c h, columns_model m zname col n nt nl k0 c h ->
  forall ze be radar lidar w, n = 1 -> field_of m "sub_col_Ze_att_tot" ze -> field_of m "sub_col_beta_att_tot" be -> k_max w = None ->
  let x' := fst (every_signal m zname col radar lidar w) in
  exists v u, assoc (vars x') "sub_col_Ze_att_tot" = Some v /\ assoc (vars x') "sub_col_beta_att_tot" = Some u /\
    forall t j k, vat v [0; t; j; k] = (if Nat.eqb k k0 && missing 20 (ze 0 t j k) then XNaN else ze 0 t j k) /\
      vat u [0; t; j; k] = (if Nat.eqb k k0 && missing 40 (be 0 t j k) then XNaN else be 0 t j k).
Proof. exact signal_writes. Qed.
Print Assumptions C125_one_subcolumn_refuted.
Theorem C125_mixing_ratio_refuted : forall m zname col n nt nl k0 c h, columns_model m zname col n nt nl k0 c h ->
  forall qf, (forall name, In name ["strat_q_subcolumns_cl"; "strat_q_subcolumns_ci"; "strat_q_subcolumns_pl"; "strat_q_subcolumns_pi"] -> field_of m name (qf name)) ->
  forall w, n = 1 ->
  (forall name, In name ["strat_q_subcolumns_cl"; "strat_q_subcolumns_ci"; "strat_q_subcolumns_pl"; "strat_q_subcolumns_pi"] -> assoc (coords (mds m)) name = None) ->
  forall name, In name ["strat_q_subcolumns_cl"; "strat_q_subcolumns_ci"; "strat_q_subcolumns_pl"; "strat_q_subcolumns_pi"] ->
  exists v, assoc (vars (fst (every_mixing m zname col w))) name = Some v /\ vdims v = ["subcolumn"; time_dim m; "lev"; "ncol"] /\
    forall t j k, vat v [0; t; j; k] = if Nat.eqb k k0 && not_positive (qf name 0 t j k) then XNaN else qf name 0 t j k.
Proof. exact mixing_writes. Qed.
Print Assumptions C125_mixing_ratio_refuted.
Example C125_case : forall w, exists v, assoc (vars (fst (every_mixing (ev_m 1) "z3" (-1) w))) "strat_q_subcolumns_cl" = Some v /\
  vat v [0; 0; 0; 0] = XNaN /\ vat ev_field [0; 0; 0; 0] = XF (- 10 ^ 50) /\ assoc (vars (mds (ev_m 1))) "strat_q_subcolumns_cl" = Some ev_field.
Proof. exact shown_then_gone. Qed.

(** *** C126: colour limits asked for are used *)
Theorem C126_unattenuated_partial : forall m zname col n nt nl k0 c h, columns_model m zname col n nt nl k0 c h ->
  forall ze be radar lidar w, field_of m "sub_col_Ze_tot" ze -> field_of m "sub_col_beta_p_tot" be -> k_min w = None -> k_max w = None ->
  exists x' p1 p2, every_nonatt m zname col radar lidar w = (x', Ok [p1; p2]) /\
    limited p1 false (fst radar) (snd radar) /\ limited p2 true (fst lidar) (snd lidar).
Proof. exact nonatt_limits. Qed.
Print Assumptions C126_unattenuated_partial.
Theorem C126_unattenuated_keywords_refuted : forall m zname col n nt nl k0 c h, columns_model m zname col n nt nl k0 c h ->
  forall ze be radar lidar w, field_of m "sub_col_Ze_tot" ze -> field_of m "sub_col_beta_p_tot" be -> k_min w <> None \/ k_max w <> None ->
  snd (every_nonatt m zname col radar lidar w) = Raise TypeError.
Proof. exact nonatt_keywords_fail. Qed.
Print Assumptions C126_unattenuated_keywords_refuted.
Theorem C126_attenuated_refuted : forall m zname col n nt nl k0 c h, columns_model m zname col n nt nl k0 c h ->
  forall ze be radar lidar w, field_of m "sub_col_Ze_att_tot" ze -> field_of m "sub_col_beta_att_tot" be ->
  every_signal m zname col radar lidar w = if k_max w then (mds m, Raise KeyError)
    else every_signal m zname col (XF (-50), XF 10) (XF (1 / 10 ^ 8), XF (1 / 10 ^ 3)) {| k_min := None; k_max := None |}.
Proof. exact signal_limits. Qed.
Print Assumptions C126_attenuated_refuted.
Theorem C126_radar_cfad_refuted : forall edges grid a w,
  (k_min w <> None -> exists e, plot_radar_CFAD edges grid a w = Raise e) /\
  (k_min w = None -> plot_radar_CFAD edges grid a w = plot_radar_CFAD edges grid a {| k_min := None; k_max := None |}).
Proof. exact radar_cfad_limits. Qed.
Print Assumptions C126_radar_cfad_refuted.
Theorem C126_lidar_cfad_refuted : forall edges grid a w, k_min w <> None -> exists e, plot_lidar_SR_CFAD edges grid a w = Raise e.
Proof. exact lidar_cfad_limits. Qed.
Print Assumptions C126_lidar_cfad_refuted.
Example C126_case : columns_model (ev_m 3) "z3" (-1) 3 2 2 0 INR w_y /\ field_of (ev_m 3) "sub_col_Ze_tot" ev_f /\ field_of (ev_m 3) "sub_col_beta_p_tot" ev_f /\
  field_of (ev_m 3) "sub_col_Ze_att_tot" ev_f /\ field_of (ev_m 3) "sub_col_beta_att_tot" ev_f.
Proof. split; [apply ev_model; lia|]. repeat split; apply ev_fields; simpl; auto. Qed.

(** *** C127: CFADs over their bins and heights *)
Theorem C127_radar : forall edges grid a w (e : nat -> R) bins, length edges = S bins -> (forall i, i < S bins -> nth i edges XNaN = XF (e i)) ->
  ash a = [length grid; bins] -> k_min w = None ->
  exists p, plot_radar_CFAD edges grid a w = Ok p /\ p_edges p = true /\ p_rows p = length grid /\ p_cols p = bins /\
    (forall i, i <= bins -> p_x p i = XF (e i)) /\ (forall k, p_y p k = XF (INR k * (48 / 100))) /\
    (forall k i, p_val p k i = aat a [k; i]).
Proof. exact radar_cfad. Qed.
Print Assumptions C127_radar.
Theorem C127_lidar : forall edges grid a w bins, length edges = S bins -> ash a = [length grid; bins] -> k_min w = None ->
  exists p, plot_lidar_SR_CFAD edges grid a w = Ok p /\ p_edges p = true /\ p_rows p = length grid /\ p_cols p = bins /\
    (forall i, i <= bins -> p_x p i = XF (INR i)) /\ (forall k, p_y p k = XF (INR k * (48 / 100))) /\
    (forall k i, p_val p k i = aat a [k; i]) /\ p_lo p = Some (XF 0) /\ p_hi p = Some (match k_max w with Some v => v | None => XF 0 end).
Proof. exact lidar_cfad. Qed.
Print Assumptions C127_lidar.
Theorem C127_heights_refuted : forall edges grid grid' a w, length grid = length grid' ->
  plot_radar_CFAD edges grid a w = plot_radar_CFAD edges grid' a w /\ plot_lidar_SR_CFAD edges grid a w = plot_lidar_SR_CFAD edges grid' a w.
Proof. exact cfad_heights. Qed.
Print Assumptions C127_heights_refuted.
Theorem C127_heights_partial : forall edges grid a w (e : nat -> R) bins, length edges = S bins -> (forall i, i < S bins -> nth i edges XNaN = XF (e i)) ->
  ash a = [length grid; bins] -> k_min w = None -> (forall k, k < length grid -> nth k grid XNaN = XF (48 / 100 * (INR k + 1 / 2))) ->
  exists p, plot_radar_CFAD edges grid a w = Ok p /\ forall k, k < length grid ->
    exists lo hi, p_y p k = XF lo /\ p_y p (S k) = XF hi /\ nth k grid XNaN = XF ((lo + hi) / 2).
Proof. exact cfad_centres. Qed.
Print Assumptions C127_heights_partial.
Example C127_case : length [XF (-50); XF (-45); XF (-40)] = 3 /\ (forall i, i < 3 -> nth i [XF (-50); XF (-45); XF (-40)] XNaN = XF (5 * INR i - 50)) /\
  ash {| ash := [2; 2]; aat := fun _ => XF (1/2) |} = [length [XF (24/100); XF (72/100)]; 2] /\
  (forall k, k < 2 -> nth k [XF (24/100); XF (72/100)] XNaN = XF (48 / 100 * (INR k + 1 / 2))).
Proof.
  split; [reflexivity|]. split; [|split; [reflexivity|]].
  - intros [|[|[|i]]] I; cbn; try lia; f_equal; lra.
  - intros [|[|k]] K; cbn; try lia; f_equal; lra.
Qed.

(** *** C128: the saved dataset *)
Theorem C128_saved : forall x bins cf cz cs x', save_cfads x bins cf cz cs = Ok x' ->
  field x' "CFAD_Radar" {| vdims := ["cosp_ht"; "cosp_ze"]; vat := aat cz |} /\
  field x' "CFAD_SR" {| vdims := ["cosp_ht"; "cosp_sr"]; vat := aat cs |} /\
  field x' "cloud_fraction" {| vdims := ["time"; "cosp_ht"; "ncol"]; vat := aat cf |} /\
  coords x' = coords x /\ forall k, ~ In k ["CFAD_Radar"; "CFAD_SR"; "cloud_fraction"] -> assoc (vars x') k = assoc (vars x) k.
Proof. exact save_holds. Qed.
Print Assumptions C128_saved.
Theorem C128_saves : forall x bins cf cz cs nt nh nz ns nc, ash cz = [nh; nz] -> ash cs = [nh; ns] -> ash cf = [nt; nh; nc] ->
  (In "time" (all_dims x) -> sz x "time" = nt) -> (In "ncol" (all_dims x) -> sz x "ncol" = nc) -> (In "cosp_ht" (all_dims x) -> sz x "cosp_ht" = nh) ->
  (In "cosp_ze" (all_dims x) -> sz x "cosp_ze" = nz) -> (In "cosp_sr" (all_dims x) -> sz x "cosp_sr" = ns) ->
  exists x', save_cfads x bins cf cz cs = Ok x'.
Proof. exact save_succeeds. Qed.
Print Assumptions C128_saves.
Theorem C128_bins_refuted : forall x bins bins' cf cz cs, save_cfads x bins cf cz cs = save_cfads x bins' cf cz cs.
Proof. exact save_bins. Qed.
Print Assumptions C128_bins_refuted.
Example C128_case : exists x', save_cfads (ev_ds 3) [XF (-50); XF (-45)] {| ash := [2; 4; 1]; aat := fun _ => XF 0 |} {| ash := [4; 1]; aat := fun _ => XF 0 |} {| ash := [4; 7]; aat := fun _ => XF 0 |} = Ok x'.
Proof. eexists. reflexivity. Qed.
