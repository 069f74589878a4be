(** Reading ModelE, DHARMA and WRF output. *)
From Verif Require Import Read_Spec Read_Final Read_Dharma Read_Wrf Read_More Read_Dims.
Local Open Scope string_scope.
Local Open Scope list_scope.

(** C101: reading a ModelE file. *)
Theorem C101_modele_reads : forall r x T p, field x "t" T -> field x "p_3d" p -> ~ In "p_3d" (map fst (coords x)) ->
  gridded (modele_obj x) T -> domain (modele_obj x) -> some_step r x "time" ->
  exists m' keep, modele_load (as_datetime r) x = Ok m' /\
    selects x (fun d i => d = "time" -> in_range r x "time" i) keep /\
    (forall k v, field x k v -> k <> "rho_a" -> held (modele_obj x) keep m' k (at_ v)) /\
    held (modele_obj x) keep m' "rho_a" (fun ix => dry_air (at_ p ix) (at_ T ix)).
Proof. exact modele_reads. Qed.
Print Assumptions C101_modele_reads.

Theorem C101_range_must_be_datetime : forall r x, r_datetime r = false -> modele_load (Some r) x = Raise RuntimeError.
Proof. exact modele_datetime. Qed.
Print Assumptions C101_range_must_be_datetime.

(** A range without a step reads the whole file. *)
Theorem C101_range_without_a_step : forall r x T, field x "t" T -> gridded (modele_obj x) T ->
  ~ (exists i, i < sz x "time" /\ in_range r x "time" i) -> modele_load (as_datetime r) x = modele_load None x.
Proof. exact modele_no_step. Qed.
Print Assumptions C101_range_without_a_step.

(** The vertical dimension is "level" exactly if the file has a coordinate
    "level" and none named "p". *)
Theorem C101_vertical_dimension : forall x, height_dim (modele_obj x) =
  if in_dec string_dec "level" (map fst (coords x)) then
    if in_dec string_dec "p" (map fst (coords x)) then "p" else "level"
  else "p".
Proof. exact modele_height. Qed.
Print Assumptions C101_vertical_dimension.

Theorem C101_dimensions : forall r x m', modele_load r x = Ok m' ->
  lat_dim m' = "lat" /\ lon_dim m' = "lon" /\ height_dim m' = height_dim (modele_obj x) /\
  ((time_dim m' = "time" /\ stacked_time_dim m' = None) \/ (time_dim m' = "time_lat_lon" /\ stacked_time_dim m' = Some "time")).
Proof. exact modele_dims. Qed.
Print Assumptions C101_dimensions.

Example C101_case : field me_file "t" (count ["time"; "level"; "lat"; "lon"] 250) /\
  field me_file "p_3d" (count ["time"; "level"; "lat"; "lon"] 800) /\
  gridded (modele_obj me_file) (count ["time"; "level"; "lat"; "lon"] 250) /\ domain (modele_obj me_file) /\
  some_step (Some (11, 12)%R) me_file "time".
Proof. exact (conj eq_refl (conj eq_refl (conj me_gridded (conj me_domain me_step)))). Qed.

(** C102: reading a DHARMA file. *)
Theorem C102_dharma_reads : forall td b r x T p cx cy, field x "t" T -> assoc (all_vars x) "p" = Some p ->
  ~ In "rho_a" (map fst (all_vars x)) -> td <> "rho_a" -> well_formed x ->
  gridded (dharma_obj td x) T -> domain (dharma_obj td x) ->
  (b <> None -> stackable (dharma_obj td x) "time_lat_lon" /\ ascending x "x" cx /\ ascending x "y" cy) ->
  some_step r x td ->
  exists m' keep, dharma_load td (box_of b) (as_datetime r) x = Ok m' /\
    selects x (fun d i => in_box b cx cy d i /\ (d = td -> in_range r x td i)) keep /\
    (forall k v, field x k v -> held (dharma_obj td x) keep m' k (at_ v)) /\
    held (dharma_obj td x) keep m' "rho_a" (fun ix => dry_air (at_ p ix) (at_ T ix)).
Proof. exact dharma_reads. Qed.
Print Assumptions C102_dharma_reads.

Theorem C102_range_must_be_datetime : forall td r x T p, field x "t" T -> assoc (all_vars x) "p" = Some p ->
  r_datetime r = false -> dharma_load td None (Some r) x = Raise RuntimeError.
Proof. exact dharma_datetime. Qed.
Print Assumptions C102_range_must_be_datetime.

Theorem C102_dimensions : forall td b r x m', dharma_load td b r x = Ok m' ->
  lat_dim m' = "y" /\ lon_dim m' = "x" /\ height_dim m' = "hgt" /\
  ((time_dim m' = td /\ stacked_time_dim m' = None) \/ (time_dim m' = "time_lat_lon" /\ stacked_time_dim m' = Some td)).
Proof. exact dharma_dims. Qed.
Print Assumptions C102_dimensions.

Example C102_case : field dh_file "t" (count ["time"; "hgt"; "y"; "x"] 250) /\ well_formed dh_file /\
  gridded (dharma_obj "time" dh_file) (count ["time"; "hgt"; "y"; "x"] 250) /\
  stackable (dharma_obj "time" dh_file) "time_lat_lon" /\
  (ascending dh_file "x" (fun i => 20 + INR i)%R /\ ascending dh_file "y" (fun i => 70 + INR i)%R) /\
  some_step (Some (10, 11)%R) dh_file "time".
Proof. exact (conj eq_refl (conj dh_wf (conj dh_gridded (conj dh_stackable (conj dh_axes dh_step))))). Qed.

(** C103: reading a WRF file. *)
Theorem C103_wrf_reads : forall o f x z tk, family_of (w_scheme o) f -> wrf_file o f x z tk ->
  forall b r lat lon, w_box o = box_of b ->
  w_range o = match r with None => None | Some (a, b) => Some (XF a, XF b) end ->
  (b <> None -> regular x lat lon) ->
  (forall t0 t1, r = Some (t0, t1) -> exists i, i < sz x "Time" /\ (t0 <= INR i < t1)%R) ->
  exists g m' keep, wrf_load o x z tk = Ok m' /\
    time_dim g = "Time" /\ lat_dim g = "south_north" /\ lon_dim g = "west_east" /\ sz (mds g) = sz x /\
    (forall d, In d (all_dims (mds g)) <-> In d mass_grid) /\
    selects (mds g) (fun d j => box_keeps b x lat lon d j /\
       (d = "Time" -> match r with None => True | Some (t0, t1) => (t0 <= INR j < t1)%R end)) keep /\
    held g keep m' "pressure" (wrf_pressure x) /\ held g keep m' "Z" (at_ z) /\ held g keep m' "T" (at_ tk) /\
    held g keep m' "rho_a" (wrf_rho x tk) /\ held g keep m' "QVAPOR" (val x "QVAPOR") /\
    (forall h, In h (classes f (w_graupel o)) ->
       held g keep m' ("q" ++ h ++ "s") (val x (mass_field h)) /\
       held g keep m' ("q" ++ h ++ "c") (fun _ => XF 0) /\ held g keep m' "conv_frac" (fun _ => XF 0) /\
       held g keep m' ("strat_" ++ h ++ "_frac") (fraction o x h) /\
       held g keep m' (number_field f h) (fun ix => per_cm3 (val x (number_field f h) ix) (wrf_rho x tk ix)) /\
       (f = NSSL -> held g keep m' (radius_field h) (val x (radius_field h)))) /\
    (w_scheme o = "nssl" ->
       held g keep m' "RHO_GRAUPEL" (fun ix => particle_density (val x "QGRAUP" ix) (val x "QVGRAUPEL" ix)) /\
       held g keep m' "RHO_HAIL" (fun ix => particle_density (val x "QHAIL" ix) (val x "QVHAIL" ix))) /\
    (w_scheme o <> "nssl" -> assoc (vars (mds m')) "RHO_GRAUPEL" = None /\ assoc (vars (mds m')) "RHO_HAIL" = None).
Proof. exact wrf_reads. Qed.
Print Assumptions C103_wrf_reads.

Theorem C103_unknown_scheme : forall o x z tk p pb, field x "P" p -> field x "PB" pb ->
  ~ In "P" (map fst (coords x)) -> ~ In "PB" (map fst (coords x)) ->
  (forall f, ~ family_of (w_scheme o) f) -> wrf_load o x z tk = Raise KeyError.
Proof. exact wrf_unknown. Qed.
Print Assumptions C103_unknown_scheme.

Example C103_case : forall b, family_of "Morrison" MG /\
  wrf_file (wf_o "Morrison" b) MG wf_x (count mass_grid 100) (count mass_grid 250).
Proof. exact (fun b => wf_ok "Morrison" b MG (or_intror (conj eq_refl eq_refl))). Qed.
Example C103_case_box : regular wf_x (fun j => 60 + INR j)%R (fun i => 20 + INR i)%R /\
  forall t0 t1, Some (0, 1)%R = Some (t0, t1) -> exists i, i < sz wf_x "Time" /\ (t0 <= INR i < t1)%R.
Proof. exact (conj wf_regular wf_step). Qed.

Theorem C103_dimensions : forall o x z tk m', wrf_load o x z tk = Ok m' ->
  lat_dim m' = "south_north" /\ lon_dim m' = "west_east" /\ height_dim m' = "bottom_top" /\
  ((time_dim m' = "Time" /\ stacked_time_dim m' = None) \/ (time_dim m' = "time_lat_lon" /\ stacked_time_dim m' = Some "Time")).
Proof. exact wrf_dims. Qed.
Print Assumptions C103_dimensions.

(** C104: the bounding box of a WRF file.  Claimed: the grid boxes inside it
    are read.  A row inside is not. *)
Theorem C104_row_inside_box_refuted : exists o z tk b g m' keep,
  w_box o = box_of (Some b) /\ wrf_load o wf_x z tk = Ok m' /\
  held g keep m' "pressure" (wrf_pressure wf_x) /\ In "south_north" (all_dims (mds g)) /\
  regular wf_x (fun j => 60 + INR j)%R (fun i => 20 + INR i)%R /\
  let '(b0, b1, b2, b3) := b in
  (b0 <= 60 + INR 2 <= b2)%R /\ 2 < sz wf_x "south_north" /\ ~ In 2 (keep "south_north").
Proof. exact box_loses_a_row. Qed.
Print Assumptions C104_row_inside_box_refuted.

(** On ascending latitudes and longitudes: all rows and columns inside but
    the one closest to the upper edge; none outside but the one closest to the
    lower edge. *)
Theorem C104_box_partial : forall o f x z tk b0 b1 b2 b3 r lat lon, family_of (w_scheme o) f -> wrf_file o f x z tk ->
  w_box o = box_of (Some (b0, b1, b2, b3)) -> w_range o = match r with None => None | Some (a, b) => Some (XF a, XF b) end ->
  regular x lat lon -> (forall t0 t1, r = Some (t0, t1) -> exists i, i < sz x "Time" /\ (t0 <= INR i < t1)%R) ->
  (b0 <= b2)%R -> (b1 <= b3)%R ->
  (forall i j, i < j < sz x "south_north" -> (lat i < lat j)%R) -> (forall i j, i < j < sz x "west_east" -> (lon i < lon j)%R) ->
  exists g m' keep, wrf_load o x z tk = Ok m' /\ sz (mds g) = sz x /\ held g keep m' "pressure" (wrf_pressure x) /\
    (forall j, j < sz x "south_north" -> (b0 <= lat j <= b2)%R -> ~ closest lat (sz x "south_north") b2 j -> In j (keep "south_north")) /\
    (forall i, i < sz x "west_east" -> (b1 <= lon i <= b3)%R -> ~ closest lon (sz x "west_east") b3 i -> In i (keep "west_east")) /\
    (forall j, In j (keep "south_north") -> closest lat (sz x "south_north") b0 j \/ (b0 < lat j < b2)%R) /\
    (forall i, In i (keep "west_east") -> closest lon (sz x "west_east") b1 i \/ (b1 < lon i < b3)%R).
Proof. exact box_rows. Qed.
Print Assumptions C104_box_partial.
Example C104_witness : family_of "Morrison" MG /\
  wrf_file (wf_o "Morrison" (Some (60, 20, 62, 21)%R)) MG wf_x (count mass_grid 100) (count mass_grid 250) /\
  regular wf_x (fun j => 60 + INR j)%R (fun i => 20 + INR i)%R /\
  (forall i j, i < j < sz wf_x "south_north" -> (60 + INR i < 60 + INR j)%R).
Proof.
  destruct (wf_ok "Morrison" (Some (60, 20, 62, 21)%R) MG (or_intror (conj eq_refl eq_refl))) as (F & W).
  split; [exact F|]. split; [exact W|]. split; [exact wf_regular|].
  intros i j (H & _). apply Rplus_lt_compat_l. apply lt_INR. exact H.
Qed.

(** C105: particle densities of the NSSL scheme.  Claimed for the scheme in
    any capitalisation; "NSSL" is accepted without them. *)
Theorem C105_nssl_refuted : exists o z tk m',
  family_of (w_scheme o) NSSL /\ wrf_file o NSSL wf_x z tk /\ wrf_load o wf_x z tk = Ok m' /\
  (exists v, field wf_x "QVGRAUPEL" v) /\ assoc (vars (mds m')) "RHO_GRAUPEL" = None /\ assoc (vars (mds m')) "RHO_HAIL" = None.
Proof. exact nssl_in_capitals. Qed.
Print Assumptions C105_nssl_refuted.

Theorem C105_densities_partial : forall o x z tk r, w_scheme o = "nssl" -> wrf_file o NSSL x z tk -> w_box o = None ->
  w_range o = match r with None => None | Some (a, b) => Some (XF a, XF b) end ->
  (forall t0 t1, r = Some (t0, t1) -> exists i, i < sz x "Time" /\ (t0 <= INR i < t1)%R) ->
  exists g m' keep, wrf_load o x z tk = Ok m' /\ sz (mds g) = sz x /\ (forall d, In d (all_dims (mds g)) <-> In d mass_grid) /\
    selects (mds g) (fun d j => d = "Time" -> match r with None => True | Some (t0, t1) => (t0 <= INR j < t1)%R end) keep /\
    held g keep m' "RHO_GRAUPEL" (fun ix => particle_density (val x "QGRAUP" ix) (val x "QVGRAUPEL" ix)) /\
    held g keep m' "RHO_HAIL" (fun ix => particle_density (val x "QHAIL" ix) (val x "QVHAIL" ix)).
Proof. exact nssl_densities. Qed.
Print Assumptions C105_densities_partial.
Example C105_case : wrf_file (wf_o "nssl" None) NSSL wf_x (count mass_grid 100) (count mass_grid 250).
Proof. exact (proj2 (wf_ok "nssl" None NSSL (or_introl (conj (or_introl eq_refl) eq_refl)))). Qed.

(** C106: every class of a DHARMA model has its radius field; the class "pir"
    has its cloud fraction in its place. *)
Theorem C106_pir_refuted : In "pir" (dharma_types false) /\
  assoc (dharma_re false) "pir" = Some "strat_pir_frac" /\ assoc (dharma_frac false) "pir" = Some "strat_pir_frac".
Proof. exact (conj (or_intror (or_intror (or_intror (or_intror (or_introl eq_refl))))) (conj eq_refl eq_refl)). Qed.
Print Assumptions C106_pir_refuted.
Theorem C106_radii_partial : forall single h, In h (dharma_types single) -> h <> "pir" ->
  assoc (dharma_re single) h = Some ("re_strat_" ++ h)%string.
Proof. exact dharma_radii. Qed.
Print Assumptions C106_radii_partial.
Theorem C106_fractions : forall (single : bool) h, In h (["cl"; "ci"; "pl"; "pi"] ++ (if single then @nil string else ["pir"]))%list ->
  In h (dharma_types single) /\ assoc (dharma_frac single) h = Some ("strat_" ++ h ++ "_frac")%string.
Proof. exact dharma_fractions. Qed.
Print Assumptions C106_fractions.
Example C106_witness : In "cl" (dharma_types true) /\ In "pir" (dharma_types false) /\ "cl" <> "pir".
Proof. repeat split; simpl; intuition discriminate. Qed.
