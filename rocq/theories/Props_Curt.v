(** Properties of time-height displays, single profiles, displays of regridded fields, class colours. *)
From Coq Require Import Reals Lra ZArith.
From Verif Require Import Disp_Inst Disp_Wit Curt_Model Curt_Spec Curt_Regrid Curt_Final.
Local Open Scope string_scope.
Local Open Scope list_scope.

(** *** C116: a time-height display shows each value at its time and level *)
Theorem C116_curtain : forall d name z f c y times levels pressure zname,
  axes_of d c times levels -> curtain_of d name z f -> placed d pressure zname times levels y ->
  forall o, titled_for times o -> limits o ->
  exists p, subcolumn_timeseries d name z pressure zname (with_mask o None (HBool false)) = Ok p /\
    shows p times levels c y f /\ p_hatch p = None /\ coloured_as o p.
Proof. exact curtain. Qed.
Print Assumptions C116_curtain.
Theorem C116_masked : forall d name z f c y times levels pressure zname,
  axes_of d c times levels -> curtain_of d name z f -> placed d pressure zname times levels y ->
  forall o K, titled_for times o -> limits o ->
  exists p, subcolumn_timeseries d name z pressure zname (with_mask o (Some (mask_of times levels K)) (HBool false)) = Ok p /\
    shows p times levels c y (fun t k => if hides (K t k) then XNaN else f t k) /\ p_hatch p = None /\ coloured_as o p.
Proof. exact curtain_masked. Qed.
Print Assumptions C116_masked.
Theorem C116_instrument : forall x name hdim c f y, instrument_of x name hdim c f y ->
  forall o, titled_for (sz x "time") o -> limits o ->
  exists p, instrument_timeseries x name (with_mask o None (HBool false)) = Ok p /\
    shows p (sz x "time") (sz x hdim) c y f /\ p_hatch p = None /\ coloured_as o p.
Proof. exact instrument. Qed.
Print Assumptions C116_instrument.
Theorem C116_instrument_masked : forall x name hdim c f y, instrument_of x name hdim c f y ->
  forall o K, titled_for (sz x "time") o -> limits o ->
  exists p, instrument_timeseries x name (with_mask o (Some (mask_of (sz x "time") (sz x hdim) K)) (HBool false)) = Ok p /\
    shows p (sz x "time") (sz x hdim) c y (fun t k => if hides (K t k) then XNaN else f t k) /\ p_hatch p = None /\ coloured_as o p.
Proof. exact instrument_masked. Qed.
Print Assumptions C116_instrument_masked.
Example C116_case : axes_of w_d INR 2 2 /\ curtain_of w_d "Ze" (-1) (fun t k => w_ze 1 t k) /\
  placed w_d false "z" 2 2 (fun k => INR (100 * k) + 1 / 2)%R /\ titled_for 2 (no_opts false true) /\ limits (no_opts false true) /\
  instrument_of w_ds "T" "lev" INR (fun _ k => XF (INR k)) INR /\ hides (XF 1) = true /\ hides (XF 0) = false.
Proof.
  split; [exact w_axes|]. split; [exact w_curtain|]. split; [exact w_placed|]. split; [right; split; [reflexivity|auto]|]. split; [discriminate|].
  split; [exact w_instrument|]. cbn. destruct (Rle_dec 1 0), (Rle_dec 0 0); (split; [|]); try reflexivity; exfalso; lra.
Qed.

(** *** C117: hatching marks the hidden values *)
Theorem C117_hatched_partial : forall d name z f c y times levels pressure zname,
  axes_of d c times levels -> curtain_of d name z f -> placed d pressure zname times levels y ->
  forall o K h, titled_for times o -> limits o -> hatching_asked h -> (forall t k, K t k = XF 0 \/ hides (K t k) = true) ->
  exists p, subcolumn_timeseries d name z pressure zname (with_mask o (Some (mask_of times levels K)) h) = Ok p /\
    shows p times levels c y f /\ coloured_as o p /\ exists g, p_hatch p = Some g /\ forall t k, g k t = true <-> hides (K t k) = true.
Proof. exact curtain_hatched. Qed.
Print Assumptions C117_hatched_partial.
Theorem C117_negative_refuted : forall d name z f c y times levels pressure zname,
  axes_of d c times levels -> curtain_of d name z f -> placed d pressure zname times levels y ->
  forall o K h, titled_for times o -> limits o -> hatching_asked h ->
  exists p g, subcolumn_timeseries d name z pressure zname (with_mask o (Some (mask_of times levels K)) h) = Ok p /\ p_hatch p = Some g /\
    forall t k r, K t k = XF r -> (r < 0)%R -> hides (K t k) = false /\ g k t = true.
Proof. exact curtain_hatched_negative. Qed.
Print Assumptions C117_negative_refuted.
Theorem C117_no_mask_refuted : forall d name z f c y times levels pressure zname,
  axes_of d c times levels -> curtain_of d name z f -> placed d pressure zname times levels y ->
  forall o h, titled_for times o -> limits o -> hatching_asked h ->
  exists p g, subcolumn_timeseries d name z pressure zname (with_mask o None h) = Ok p /\ p_hatch p = Some g /\ forall t k, g k t = true.
Proof. exact curtain_hatched_all. Qed.
Print Assumptions C117_no_mask_refuted.
Theorem C117_other_shape : forall d name z f c y times levels pressure zname,
  axes_of d c times levels -> curtain_of d name z f -> placed d pressure zname times levels y ->
  forall o k, titled_for times o -> ash k <> [times; levels] ->
  subcolumn_timeseries d name z pressure zname (with_mask o (Some k) (HBool false)) =
    subcolumn_timeseries d name z pressure zname (with_mask o None (HBool false)) /\
  forall h, limits o -> hatching_asked h -> subcolumn_timeseries d name z pressure zname (with_mask o (Some k) h) = Raise IndexError.
Proof.
  exact (fun d name z f c y times levels pressure zname A C P o k T N =>
    conj (curtain_other d name z f c y times levels pressure zname A C P o k T N)
         (fun h L H => curtain_hatched_other d name z f c y times levels pressure zname A C P o k h L H N)).
Qed.
Print Assumptions C117_other_shape.
Example C117_case : hatching_asked (HStr "//") /\ hatching_asked (HBool true) /\ ash (mask_of 2 3 (fun _ _ => XF 0)) <> [2; 2] /\
  forall t k, (fun t k : nat => if Nat.eqb t k then XF 0 else XNaN) t k = XF 0 \/ hides ((fun t k : nat => if Nat.eqb t k then XF 0 else XNaN) t k) = true.
Proof. split; [right; exists "//"%string; split; [discriminate|reflexivity]|]. split; [left; reflexivity|]. split; [discriminate|]. intros t k. cbv beta. destruct (Nat.eqb t k); auto. Qed.

(** *** C118: displays without options *)
Theorem C118_default_title_refuted : forall d x name z pressure zname o, o_titled o = false -> o_dated o = false ->
  (exists e, subcolumn_timeseries d name z pressure zname o = Raise e) /\ (exists e, q_timeseries d name z pressure zname o = Raise e) /\
  exists e, instrument_timeseries x name o = Raise e.
Proof. exact untitled. Qed.
Print Assumptions C118_default_title_refuted.
Theorem C118_log_limits_refuted : forall d name z f c y times levels pressure zname,
  axes_of d c times levels -> curtain_of d name z f -> placed d pressure zname times levels y ->
  forall o, o_log o = true -> o_lo o = None \/ o_hi o = None ->
  subcolumn_timeseries d name z pressure zname o = Raise UnboundLocalError /\ q_timeseries d name z pressure zname o = Raise UnboundLocalError.
Proof.
  exact (fun d name z f c y times levels pressure zname A C P o L H =>
    conj (curtain_no_limits d name z f c y times levels pressure zname A C P o L H) (q_no_limits d name z f c y times levels pressure zname A C P o L H)).
Qed.
Print Assumptions C118_log_limits_refuted.
Theorem C118_instrument_limits_refuted : forall x name hdim c f y, instrument_of x name hdim c f y ->
  forall o, o_log o = true -> o_lo o = None \/ o_hi o = None -> instrument_timeseries x name o = Raise UnboundLocalError.
Proof. exact instrument_no_limits. Qed.
Print Assumptions C118_instrument_limits_refuted.
Theorem C118_given_partial : forall d name z f c y times levels pressure zname,
  axes_of d c times levels -> curtain_of d name z f -> placed d pressure zname times levels y ->
  forall lo hi dated, exists p, subcolumn_timeseries d name z pressure zname
    {| o_mask := None; o_hatch := HBool false; o_log := true; o_lo := Some lo; o_hi := Some hi; o_titled := true; o_dated := dated |} = Ok p /\
    shows p times levels c y f /\ p_log p = true /\ p_lo p = Some lo /\ p_hi p = Some hi.
Proof. exact curtain_given. Qed.
Print Assumptions C118_given_partial.
Example C118_case : o_titled (no_opts false false) = false /\ o_dated (no_opts false false) = false /\ axes_of w_d INR 2 2.
Proof. split; [reflexivity|]. split; [reflexivity|exact w_axes]. Qed.

(** *** C119: the profile of all subcolumns at the nearest time *)
Theorem C119_profile : forall d name f c times levels pressure zname t,
  axes_of d c times levels -> subcolumn_field d name f -> 0 < times ->
  exists i, i < times /\ (forall j, j < times -> (Rabs (t - c i) <= Rabs (t - c j))%R) /\
    forall y, placed_at d pressure zname i levels y -> forall o, limits o ->
    (exists p, single_profile d name (XF t) pressure zname (with_mask o None (HBool false)) = Ok p /\
      shows p (sz (d_ds d) "subcolumn") levels INR y (fun s k => f s i k) /\ p_hatch p = None /\ coloured_as o p) /\
    forall K, exists p, single_profile d name (XF t) pressure zname (with_mask o (Some (mask_of (sz (d_ds d) "subcolumn") levels K)) (HBool false)) = Ok p /\
      shows p (sz (d_ds d) "subcolumn") levels INR y (fun s k => if hides (K s k) then XNaN else f s i k) /\ p_hatch p = None /\ coloured_as o p.
Proof. exact profile. Qed.
Print Assumptions C119_profile.
Example C119_case : axes_of w_d INR 2 2 /\ subcolumn_field w_d "Ze" w_ze /\ placed_at w_d false "z" 1 2 (w_y 1).
Proof. split; [exact w_axes|]. split; [exact w_field|exact (w_placed_at 1)]. Qed.

(** *** C120: mixing ratios in g/kg at heights in km *)
Theorem C120_mixing_ratio : forall d name z f c y times levels zname,
  axes_of d c times levels -> curtain_of d name z f -> placed d false zname times levels y ->
  forall o, titled_for times o -> limits o ->
  (exists p, q_timeseries d name z false zname (with_mask o None (HBool false)) = Ok p /\
    shows p times levels c (fun k => y k / 1000)%R (fun t k => xmul (f t k) (XF 1000)) /\ p_hatch p = None /\ coloured_as o p) /\
  forall K, exists p, q_timeseries d name z false zname (with_mask o (Some (mask_of times levels K)) (HBool false)) = Ok p /\
    shows p times levels c (fun k => y k / 1000)%R (fun t k => if hides (K t k) then XNaN else xmul (f t k) (XF 1000)) /\ p_hatch p = None /\ coloured_as o p.
Proof.
  exact (fun d name z f c y times levels zname A C P o T L =>
    conj (q_curtain d name z f c y times levels false zname A C P o T L) (fun K => q_masked d name z f c y times levels false zname A C P o K T L)).
Qed.
Print Assumptions C120_mixing_ratio.
Theorem C120_pressure_refuted : forall d name z f c labels times levels zname,
  axes_of d c times levels -> curtain_of d name z f -> placed d true zname times levels labels ->
  forall o, titled_for times o -> limits o ->
  exists p, q_timeseries d name z true zname (with_mask o None (HBool false)) = Ok p /\ forall k, k < levels -> p_y p k = XF (labels k / 1000).
Proof. exact q_pressure. Qed.
Print Assumptions C120_pressure_refuted.
Example C120_case : axes_of w_d INR 2 2 /\ curtain_of w_d "Ze" (-1) (fun t k => w_ze 1 t k) /\ placed w_d false "z" 2 2 (fun k => INR (100 * k) + 1 / 2)%R /\
  axes_of lev_d INR 2 2 /\ curtain_of lev_d "T" 0 (fun t k => XF (INR k)) /\ placed lev_d true "z" 2 2 INR.
Proof. split; [exact w_axes|]. split; [exact w_curtain|]. split; [exact w_placed|]. split; [exact lev_axes|]. split; [exact lev_curtain|exact lev_placed]. Qed.

(** *** C121: displays of regridded cloud fraction and scattering ratio *)
Theorem C121_cloud_fraction : forall d c times a b n g col k0, timed d c times -> indexes n col k0 ->
  forall grid y titled dated, a = times -> length grid = b -> (forall k, k < b -> nth k grid XNaN = XF (y k)) -> times <> 1 -> b <> 1 ->
  (titled = true \/ (dated = true /\ 0 < times)) ->
  exists p, snd (regridded_CF d (array3 a b n g) grid col titled dated) = Ok p /\
    shows p times b c y (fun t h => if not_positive (g t h k0) then XNaN else g t h k0).
Proof. exact cf_panel. Qed.
Print Assumptions C121_cloud_fraction.
Theorem C121_scattering_ratio : forall d c times ns a b n g col sub k0 s0, timed d c times -> indexes n col k0 -> indexes ns sub s0 ->
  forall grid y titled dated, a = times -> length grid = b -> (forall k, k < b -> nth k grid XNaN = XF (y k)) -> times <> 1 -> b <> 1 ->
  (titled = true \/ (dated = true /\ 0 < times)) ->
  exists p, snd (regridded_SR d (array4 ns a b n g) grid col sub titled dated) = Ok p /\
    shows p times b c (fun k => y k * 1000)%R (fun t h => if is_zero (g s0 t h k0) then XNaN else g s0 t h k0).
Proof. exact sr_panel. Qed.
Print Assumptions C121_scattering_ratio.
Theorem C121_single_refuted : forall d c times a b n g col k0, timed d c times -> indexes n col k0 ->
  forall grid titled dated, a = 1 \/ b = 1 -> exists e, snd (regridded_CF d (array3 a b n g) grid col titled dated) = Raise e.
Proof. exact cf_single. Qed.
Print Assumptions C121_single_refuted.
Example C121_case : timed w_d INR 2 /\ indexes 3 (-1) 2 /\ indexes 3 1 1 /\ length [XF (1/2); XF 1; XF 2] = 3.
Proof. split; [exact w_timed|]. split; [split; [lia|right; lia]|]. split; [split; [lia|left; lia]|reflexivity]. Qed.

(** *** C122: arrays given to displays *)
Theorem C122_cloud_fraction_refuted : forall d c times a b n g col k0, timed d c times -> indexes n col k0 ->
  forall grid titled dated, let A' := fst (regridded_CF d (array3 a b n g) grid col titled dated) in
  ash A' = [a; b; n] /\ forall t h k, aat A' [t; h; k] = if Nat.eqb k k0 && not_positive (g t h k) then XNaN else g t h k.
Proof. exact cf_array. Qed.
Print Assumptions C122_cloud_fraction_refuted.
Theorem C122_scattering_ratio_refuted : forall d c times ns a b n g col sub k0 s0, timed d c times -> indexes n col k0 -> indexes ns sub s0 ->
  forall grid titled dated, let A' := fst (regridded_SR d (array4 ns a b n g) grid col sub titled dated) in
  ash A' = [ns; a; b; n] /\
  forall s t h k, aat A' [s; t; h; k] = if Nat.eqb s s0 && Nat.eqb k k0 && is_zero (g s t h k) then XNaN else g s t h k.
Proof. exact sr_array. Qed.
Print Assumptions C122_scattering_ratio_refuted.
Theorem C122_history_partial : forall d c times a b n g grid titled dated cols ks, timed d c times -> Forall2 (fun z k => indexes n z k) cols ks ->
  forall t h k, aat (cf_all d grid titled dated cols (array3 a b n g)) [t; h; k] =
    if existsb (Nat.eqb k) ks && not_positive (g t h k) then XNaN else g t h k.
Proof. exact cf_history. Qed.
Print Assumptions C122_history_partial.
Example C122_case : timed w_d INR 2 /\ Forall2 (fun z k => indexes 3 z k) [0%Z; (-1)%Z; 0%Z] [0; 2; 0] /\ not_positive (XF 0) = true.
Proof.
  split; [exact w_timed|]. split; [|cbn; destruct (Rle_dec 0 0); [reflexivity|lra]].
  repeat (apply Forall2_cons; [split; lia|]). apply Forall2_nil.
Qed.

(** *** C123: each class has its own colour, tick and label *)
Theorem C123_class_colours : forall cl var zeros l, (cl = Some l \/ cl = None /\ var = Some (Some l)) -> l <> [] ->
  exists b, change_plot_to_class_mask cl var None zeros = Ok b /\
    (forall k, 1 <= k <= length l -> In (k, nth (k - 1) l "") (b_ticks b)) /\
    (zeros = false -> In (0, "clear") (b_ticks b)) /\
    (forall k, (if zeros then 1 else 0) <= k <= length l -> (b_lo b < INR k < b_hi b)%R /\ (0 <= colour b (INR k) < Z.of_nat (b_colours b))%Z) /\
    (forall k k', (if zeros then 1 else 0) <= k <= length l -> (if zeros then 1 else 0) <= k' <= length l -> colour b (INR k) = colour b (INR k') -> k = k') /\
    length (b_ticks b) = b_colours b.
Proof. exact class_colours. Qed.
Print Assumptions C123_class_colours.
Example C123_case : (@None (list string) = Some ["liquid"; "ice"] \/ @None (list string) = None /\ Some (Some ["liquid"; "ice"]) = Some (Some ["liquid"; "ice"])) /\ ["liquid"; "ice"] <> [].
Proof. split; [right; split; reflexivity|discriminate]. Qed.
