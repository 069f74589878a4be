(** Reading E3SM and CESM2 output. *)
From Verif Require Import Load_Spec Load_Final Load_Crop.
Local Open Scope string_scope.
Local Open Scope list_scope.

(** C70: reading succeeds, and every field that is not a number or radius
    field has, for every grid box of the file, the file's value at the box's
    place in the dataset; so does the height coordinate. *)
Theorem C70_reading_succeeds : forall o m T, o_range o = None -> domain m ->
  output_file o m T ->
  (o_scheme o = "P3" -> p3_file m T) ->
  exists m', e3sm_load o m = Ok m'.
Proof. exact final_ok. Qed.
Print Assumptions C70_reading_succeeds.

Theorem C70_values_stay_with_their_box : forall o m m' T, o_range o = None -> domain m ->
  output_file o m T ->
  (o_scheme o = "P3" -> p3_file m T) -> e3sm_load o m = Ok m' ->
  forall k v, field (mds m) k v ->
  ~ In k (loaded_names ++ map snd (f_N (e3sm_usual (o_single_ice o))) ++ map snd (f_re (e3sm_usual (o_single_ice o)))) ->
  exists v', field (mds m') k v' /\ forall ix, inside (mds m) ix -> at_ v' (place m ix) = at_ v ix.
Proof. exact final_kept. Qed.
Print Assumptions C70_values_stay_with_their_box.

Theorem C70_height_stays_with_its_values : forall o m m' T, o_range o = None -> domain m ->
  output_file o m T ->
  (o_scheme o = "P3" -> p3_file m T) -> e3sm_load o m = Ok m' ->
  forall v, assoc (coords (mds m)) (height_dim m) = Some v ->
  exists v', assoc (coords (mds m')) (height_dim m) = Some v' /\
    forall ix, inside (mds m) ix -> at_ v' (place m ix) = at_ v ix.
Proof. exact final_level. Qed.
Print Assumptions C70_height_stays_with_its_values.

(** C71: pressure, density, number concentrations and radii. *)
Theorem C71_air : forall o m m' T, o_range o = None -> domain m ->
  output_file o m T ->
  (o_scheme o = "P3" -> p3_file m T) -> e3sm_load o m = Ok m' ->
  loaded m m' "p_3d" (pressure m) /\ loaded m m' "rho_a" (density m) /\ loaded m m' "zeros_cf" (fun _ => XF 0).
Proof. exact final_air. Qed.
Print Assumptions C71_air.

Theorem C71_numbers_and_radii : forall o m m' T, o_range o = None -> domain m ->
  output_file o m T ->
  (o_scheme o = "P3" -> p3_file m T) -> e3sm_load o m = Ok m' ->
  forall h nn rn, In (h, (nn, rn)) class_fields ->
  In h (["cl"; "ci"] ++ (if o_rain o then ["pl"] else []) ++ (if o_single_ice o then [] else ["pi"])) ->
  loaded m m' nn (number m nn) /\ loaded m m' rn (fun ix => radius h (raw m rn ix)).
Proof. exact named_fields. Qed.
Print Assumptions C71_numbers_and_radii.

Theorem C71_in_numbers : forall m ix p0 a ps b t, raw m "P0" ix = XF p0 -> raw m "hyam" ix = XF a ->
  raw m "PS" ix = XF ps -> raw m "hybm" ix = XF b -> raw m "T" ix = XF t -> t <> 0%R ->
  pressure m ix = XF ((p0 * a + ps * b) / 100) /\
  density m ix = XF ((p0 * a + ps * b) / (287058 / 1000 * t)) /\
  forall k n, raw m k ix = XF n -> number m k ix = XF (n * ((p0 * a + ps * b) / (287058 / 1000 * t)) / 10 ^ 6).
Proof. exact real_air. Qed.
Print Assumptions C71_in_numbers.

(** C72: the additional fields of P3 ice. *)
Theorem C72_p3_fields : forall o m m' T, o_range o = None -> domain m ->
  output_file o m T ->
  (o_scheme o = "P3" -> p3_file m T) -> e3sm_load o m = Ok m' -> o_scheme o = "P3" ->
  loaded m m' "in_cld_Ni" (in_cloud_number m) /\ loaded m m' "Fr" (rime_fraction m) /\
  loaded m m' "rho_r" (fun ix => if xeqb (rime_fraction m ix) (XF 0) then XF 0
                                 else xdiv (raw m "CLDRIM" ix) (raw m "BVRIM" ix)) /\
  loaded m m' "qi_norm" (fun ix => xdiv (xdiv (raw m "CLDICE" ix) (raw m "FREQI" ix)) (in_cloud_number m ix)).
Proof. exact final_p3. Qed.
Print Assumptions C72_p3_fields.

(** C73: "P3 ice below 1e-18 kg/kg is removed on reading" fails: ice and rime
    mass are never changed. *)
Theorem C73_truncated_ice_removed_refuted : exists o m T m' v ix,
  o_scheme o = "P3" /\ domain m /\
  output_file o m T /\
  p3_file m T /\ e3sm_load o m = Ok m' /\ inside (mds m) ix /\
  (exists q, raw m "CLDICE" ix = XF q /\ q < / 10 ^ 18)%R /\
  field (mds m') "CLDICE" v /\ at_ v (place m ix) = raw m "CLDICE" ix.
Proof. exact truncation. Qed.
Print Assumptions C73_truncated_ice_removed_refuted.

Theorem C73_ice_mass_never_changed : forall o m m' T, o_range o = None -> domain m ->
  output_file o m T ->
  (o_scheme o = "P3" -> p3_file m T) -> e3sm_load o m = Ok m' ->
  forall k v, o_scheme o = "P3" -> In k ["CLDICE"; "CLDRIM"] -> field (mds m) k v ->
  loaded m m' k (at_ v).
Proof. exact final_untouched. Qed.
Print Assumptions C73_ice_mass_never_changed.

(** A file with 2 times, 3 levels and 2 x 2 columns meets the hypotheses. *)
Example load_witness : o_range demo_opts = None /\ domain demo_file /\
  output_file demo_opts demo_file demo_T /\
  (o_scheme demo_opts = "P3" -> p3_file demo_file demo_T) /\ inside (mds demo_file) (fun _ => 1) /\
  place demo_file (fun _ => 1) "lev" = 1 /\ place demo_file (fun _ => 1) "time_lat_lon" = 7.
Proof.
  split; [reflexivity|]. split; [exact demo_domain|]. split; [exact demo_is_file|]. split; [exact demo_p3|].
  split; [exact demo_inside|]. split; reflexivity.
Qed.
