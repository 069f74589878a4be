(** P3 ice of E3SMv3: the lookup table and the fields derived from it; reading
    part of a file. *)
From Verif Require Import P3_Spec P3_Grid P3_Final Load_Spec Load_Final Load_Crop Load_Witness.
From Coq Require Import Sorted Reals.
Local Open Scope string_scope.
Local Open Scope list_scope.

(** C89: reading with a time range is reading the file cut to that range. *)
Theorem C89_reading_a_time_range : forall o m T t0 t1 m0, o_range o = Some (t0, t1) -> domain m ->
  output_file o m T ->
  (o_scheme o = "P3" -> p3_file m T) -> crop_time_range m t0 t1 None = Ok m0 ->
  e3sm_load o m = e3sm_load (no_range o) m0 /\ domain m0 /\
  exists T0, output_file o m0 T0 /\
  (o_scheme o = "P3" -> p3_file m0 T0).
Proof. exact load_of_cropped. Qed.
Print Assumptions C89_reading_a_time_range.

Theorem C89_values_in_the_range : forall o m m' T t0 t1 tc, o_range o = Some (XF t0, XF t1) -> domain m ->
  output_file o m T ->
  (o_scheme o = "P3" -> p3_file m T) ->
  assoc (all_vars (mds m)) (time_dim m) = Some tc -> vdims tc = [time_dim m] ->
  (exists i t, i < sz (mds m) (time_dim m) /\ at_ tc (fun _ => i) = XF t /\ (t0 <= t < t1)%R) ->
  e3sm_load o m = Ok m' ->
  exists keep m0, StronglySorted lt keep /\
    (forall i, In i keep <-> i < sz (mds m) (time_dim m) /\ exists t, at_ tc (fun _ => i) = XF t /\ (t0 <= t < t1)%R) /\
    crop_time_range m (XF t0) (XF t1) None = Ok m0 /\
    (forall d, sz (mds m0) d = if string_dec d (time_dim m) then length keep else sz (mds m) d) /\
    forall k v, field (mds m) k v ->
    ~ In k (loaded_names ++ map snd (f_N (e3sm_usual (o_single_ice o))) ++ map snd (f_re (e3sm_usual (o_single_ice o)))) ->
    exists v', field (mds m') k v' /\ forall ix, inside (mds m0) ix ->
      at_ v' (place m0 ix) = at_ v (fun d => if string_dec d (time_dim m) then nth (ix d) keep 0 else ix d).
Proof. exact load_range_values. Qed.
Print Assumptions C89_values_in_the_range.

Example C89_witness : o_range timed_opts = Some (XF (21 / 2), XF 20) /\ domain timed_file /\
  output_file timed_opts timed_file demo_T /\
  (o_scheme timed_opts = "P3" -> p3_file timed_file demo_T) /\
  assoc (all_vars (mds timed_file)) (time_dim timed_file) = Some (demo_var ["time"] 10) /\
  exists i t, i < sz (mds timed_file) (time_dim timed_file) /\ at_ (demo_var ["time"] 10) (fun _ => i) = XF t /\ (21 / 2 <= t < 20)%R.
Proof.
  split; [reflexivity|]. split; [exact timed_domain|]. split; [exact timed_is_file|]. split; [exact timed_p3|]. exact timed_coord.
Qed.

Local Open Scope R_scope.
(** C90: interpolation in the table. *)
Theorem C90_trilinear : forall tb fr rr qn L, real_table tb fr rr qn L ->
  forall x y z i j k a a' b b' c c',
  in_interval fr i x a a' -> in_interval rr j y b b' -> in_interval qn k z c c' ->
  rgi (ax_fr tb) (ax_rr tb) (ax_qn tb) (t_lam tb) (XF x) (XF y) (XF z) =
  XF (trilinear L i j k ((x - a) / (a' - a)) ((y - b) / (b' - b)) ((z - c) / (c' - c))).
Proof. exact rgi_trilinear. Qed.
Print Assumptions C90_trilinear.

Theorem C90_every_point_has_a_cell : forall l rs, table_axis l rs -> forall x, first_of rs <= x <= last_of rs ->
  exists i a b, in_interval rs i x a b.
Proof. exact some_interval. Qed.
Print Assumptions C90_every_point_has_a_cell.

Theorem C90_table_values_at_the_nodes : forall tb fr rr qn L i j k, real_table tb fr rr qn L ->
  (S i < length fr)%nat -> (S j < length rr)%nat -> (S k < length qn)%nat ->
  rgi (ax_fr tb) (ax_rr tb) (ax_qn tb) (t_lam tb) (XF (nth i fr 0)) (XF (nth j rr 0)) (XF (nth k qn 0)) = XF (L i j k).
Proof. exact at_nodes. Qed.
Print Assumptions C90_table_values_at_the_nodes.

Theorem C90_between_table_values : forall tb fr rr qn L, real_table tb fr rr qn L -> forall x y z lo hi,
  first_of fr <= x <= last_of fr -> first_of rr <= y <= last_of rr -> first_of qn <= z <= last_of qn ->
  (forall i j k, (i < length fr)%nat -> (j < length rr)%nat -> (k < length qn)%nat -> lo <= L i j k <= hi) ->
  exists v, rgi (ax_fr tb) (ax_rr tb) (ax_qn tb) (t_lam tb) (XF x) (XF y) (XF z) = XF v /\ lo <= v <= hi.
Proof. exact rgi_between. Qed.
Print Assumptions C90_between_table_values.

Theorem C90_missing_off_the_grid : forall tb fr rr qn L, real_table tb fr rr qn L -> forall x y z,
  x < first_of fr \/ last_of fr < x \/ y < first_of rr \/ last_of rr < y \/ z < first_of qn \/ last_of qn < z ->
  rgi (ax_fr tb) (ax_rr tb) (ax_qn tb) (t_lam tb) (XF x) (XF y) (XF z) = XNaN.
Proof. exact rgi_outside. Qed.
Print Assumptions C90_missing_off_the_grid.

(** C91: the fields of an E3SMv3 dataset read with a table. *)
Theorem C91_reading_succeeds : forall Gam o m T tb fr rr qn L, o_range o = None -> domain m ->
  output_file o m T ->
  o_scheme o = "P3"%string -> p3_file m T -> real_table tb fr rr qn L ->
  exists m', e3smv3_load Gam o (Some tb) m = Ok m'.
Proof. exact read_ok. Qed.
Print Assumptions C91_reading_succeeds.

Theorem C91_inputs_in_table_range : forall Gam o m m' T tb fr rr qn L, o_range o = None -> domain m ->
  output_file o m T ->
  o_scheme o = "P3"%string -> p3_file m T -> real_table tb fr rr qn L -> e3smv3_load Gam o (Some tb) m = Ok m' ->
  loaded m m' "Fr" (fun ix => into_range_x fr (rime_fraction m ix)) /\
  loaded m m' "rho_r" (fun ix => into_range_x rr (rime_density m ix)) /\
  loaded m m' "qi_norm" (fun ix => into_range_x qn (mass_per_number m ix)).
Proof. exact read_inputs. Qed.
Print Assumptions C91_inputs_in_table_range.

Theorem C91_slope_from_table : forall Gam o m m' T tb fr rr qn L, o_range o = None -> domain m ->
  output_file o m T ->
  o_scheme o = "P3"%string -> p3_file m T -> real_table tb fr rr qn L -> e3smv3_load Gam o (Some tb) m = Ok m' ->
  forall ix, inside (mds m) ix ->
  table_slope fr rr qn L (rime_fraction m ix) (rime_density m ix) (mass_per_number m ix) (box_value m m' "lambda_ice" ix).
Proof. exact read_slope. Qed.
Print Assumptions C91_slope_from_table.

Theorem C91_other_fields_kept : forall Gam o m m' T tb fr rr qn L, o_range o = None -> domain m ->
  output_file o m T ->
  o_scheme o = "P3"%string -> p3_file m T -> real_table tb fr rr qn L -> e3smv3_load Gam o (Some tb) m = Ok m' ->
  exists m1, e3sm_load o m = Ok m1 /\ coords (mds m') = coords (mds m1) /\
  forall k, ~ In k ["Fr"; "rho_r"; "qi_norm"; "lambda_ice"; "mu_ice"; "N0_norm_ice"]%string ->
    assoc (vars (mds m')) k = assoc (vars (mds m1)) k.
Proof. exact read_others. Qed.
Print Assumptions C91_other_fields_kept.

Theorem C91_without_a_table : forall Gam o m, e3smv3_load Gam o None m = e3sm_load o m.
Proof. exact no_table. Qed.
Print Assumptions C91_without_a_table.

(** C92: for positive slopes the size distribution of a grid box holds one
    particle (per particle): slope, shape and intercept are consistent. *)
Theorem C92_one_particle : forall Gam o m m' T tb fr rr qn L lo hi, o_range o = None -> domain m ->
  output_file o m T ->
  o_scheme o = "P3"%string -> p3_file m T -> real_table tb fr rr qn L -> e3smv3_load Gam o (Some tb) m = Ok m' ->
  (forall i j k, (i < length fr)%nat -> (j < length rr)%nat -> (k < length qn)%nat -> lo <= L i j k <= hi) -> 0 < lo ->
  forall ix, inside (mds m) ix ->
  ((rime_fraction m ix = XNaN \/ rime_density m ix = XNaN \/ mass_per_number m ix = XNaN) ->
     box_value m m' "lambda_ice" ix = XNaN /\ box_value m m' "mu_ice" ix = XNaN /\ box_value m m' "N0_norm_ice" ix = XNaN) /\
  (rime_fraction m ix <> XNaN -> rime_density m ix <> XNaN -> mass_per_number m ix <> XNaN -> exists lam,
     lo <= lam <= hi /\ 0 <= p3_shape lam <= 6 /\
     box_value m m' "lambda_ice" ix = XF lam /\ box_value m m' "mu_ice" ix = XF (p3_shape lam) /\
     (gamma_value (p3_shape lam + 1) (Gam (p3_shape lam + 1)) -> exists n0,
        box_value m m' "N0_norm_ice" ix = XF n0 /\ integral_to_infinity (gamma_psd n0 lam (p3_shape lam)) 1)).
Proof. exact read_psd. Qed.
Print Assumptions C92_one_particle.

(** A file and a table that meet the hypotheses; a slope whose shape has a
    known gamma value. *)
Example P3_witness : o_range demo_opts = None /\ domain demo_file /\
  output_file demo_opts demo_file demo_T /\
  o_scheme demo_opts = "P3"%string /\ p3_file demo_file demo_T /\
  real_table demo_table [0; 1] [0; 900] [0; / 1000] (fun i j k => 1 + INR (i + j + k)) /\
  (forall i j k, (i < length [0; 1]%R)%nat -> (j < length [0; 900]%R)%nat -> (k < length [0; / 1000]%R)%nat -> 1 <= 1 + INR (i + j + k) <= 4) /\
  inside (mds demo_file) (fun _ => 1%nat) /\ gamma_value (p3_shape 1 + 1) 1.
Proof.
  split; [reflexivity|]. split; [exact demo_domain|]. split; [exact demo_is_file|]. split; [reflexivity|].
  split; [exact (demo_p3 eq_refl)|]. split; [exact demo_table_ok|]. split; [exact demo_table_pos|].
  split; [exact demo_inside|exact gamma_of_one].
Qed.
