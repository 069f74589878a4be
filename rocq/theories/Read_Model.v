(** Reading ModelE, DHARMA and WRF output: emc2/core/model.py 196-249, 621-703, 1100-1503.
    The file is a dataset; reading it (netCDF, act-atmos), unit attributes,
    the conversion to float64, parameters of the classes and
    [load_processed] are not modelled. *)
From Verif Require Export Load_Model.
From Verif Require Export Mom_Base.
Local Open Scope string_scope.
Local Open Scope list_scope.

(** model.py 196-207 with the names of the temperature and pressure fields. *)
Definition air_density (T p : string) (x : xds) : res xds :=
  calc_air_density {| f_p := p; f_T := T; f_N := []; f_re := []; f_q := []; f_frac := [] |} x.

(** [ds.isel({d: ...})] keeping the given positions. *)
Definition keep_along (d : string) (keep : list nat) (x : xds) : xds :=
  {| sz := fun c => if String.eqb c d then length keep else sz x c;
     coords := on_vals (isel d keep) (coords x);
     vars := on_vals (isel d keep) (vars x) |}.

(** A time range: whether its type is datetime64, and its ends. *)
Record trange := { r_datetime : bool; r_start : xr; r_stop : xr }.
(** model.py 685-690, 1488-1493: ModelE and DHARMA ask for datetime64. *)
Definition checked_range (m : mobj) (r : option trange) : res mobj :=
  match r with
  | None => Ok m
  | Some r => if r_datetime r then crop_time_range m (r_start r) (r_stop r) None else Raise RuntimeError
  end.

(** model.py 655-703: [ModelE.__init__] from the dimension names on (the
    dimension names default to those of [Model]). *)
Definition has_axis (x : xds) (n : string) : bool := memb n (map fst (coords x)).
Definition modele_obj (x : xds) : mobj :=
  {| mds := x; time_dim := "time";
     height_dim := if has_axis x "level" && negb (has_axis x "p") then "level" else "p";
     lat_dim := "lat"; lon_dim := "lon"; stacked_time_dim := None |}.
Definition modele_load (r : option trange) (x : xds) : res mobj :=
  do m1 <- checked_range (modele_obj x) r;
  do m2 <- check_and_stack m1 "time_lat_lon" true;
  do _ <- getv (mds m2) "p_3d";
  do x' <- air_density "t" "p_3d" (mds m2);
  Ok (with_ds m2 x').

(** model.py 238-249: [_crop_bounding_box_x_y], [ds.sel(x=slice(..), y=slice(..))].
    On a non-decreasing coordinate both ends are included; on a
    non-increasing one the slice runs from the first label not above its
    start to the last label not below its stop.  Other coordinates, and
    dimensions without one, are not modelled: KeyError. *)
Fixpoint monotone (le : xr -> xr -> bool) (l : list xr) : bool :=
  match l with
  | a :: (b :: _) as r => le a b && monotone le r
  | [a] => le a a
  | [] => true
  end.
Definition label_slice (x : xds) (d : string) (lo hi : xr) : res (list nat) :=
  match assoc (coords x) d with
  | None => Raise KeyError
  | Some c =>
      let n := sz x d in
      let vals := map (fun i => vat c [i]) (seq 0 n) in
      if monotone xleb vals then Ok (filter (fun i => xleb lo (vat c [i]) && xleb (vat c [i]) hi) (seq 0 n))
      else if monotone (fun a b => xleb b a) vals
           then Ok (filter (fun i => xleb (vat c [i]) lo && xleb hi (vat c [i])) (seq 0 n))
           else Raise KeyError
  end.
(** (min, min, max, max). *)
Definition box4 := (xr * xr * xr * xr)%type.
Definition crop_xy (m : mobj) (b : box4) : res mobj :=
  let '(x0, y0, x1, y1) := b in
  do kx <- label_slice (mds m) "x" x0 x1;
  do ky <- label_slice (mds m) "y" y0 y1;
  Ok (with_ds m (keep_along "y" ky (keep_along "x" kx (mds m)))).

(** model.py 1424-1503: [DHARMA.__init__] from the dimension names on. *)
Definition dharma_obj (td : string) (x : xds) : mobj :=
  {| mds := x; time_dim := td; height_dim := "hgt"; lat_dim := "y"; lon_dim := "x"; stacked_time_dim := None |}.
Definition dharma_load (td : string) (box : option box4) (r : option trange) (x : xds) : res mobj :=
  do x' <- air_density "t" "p" x;
  let m := dharma_obj td x' in
  do m1 <- (match box with None => Ok m | Some b => crop_xy m b end);
  do m2 <- checked_range m1 r;
  check_and_stack m2 "time_lat_lon" true.
(** model.py 1434-1467: the names of the effective radius fields. *)
Definition dharma_types (single : bool) : list string := ["cl"; "ci"; "pl"; "pi"] ++ (if single then [] else ["pir"]).
Definition dharma_re (single : bool) : list (string * string) :=
  [("cl", "re_strat_cl"); ("ci", "re_strat_ci"); ("pi", "re_strat_pi"); ("pl", "re_strat_pl")]
  ++ (if single then [] else [("pir", "strat_pir_frac")]).
Definition dharma_frac (single : bool) : list (string * string) :=
  [("cl", "strat_cl_frac"); ("ci", "strat_ci_frac"); ("pl", "strat_pl_frac"); ("pi", "strat_pi_frac")]
  ++ (if single then [] else [("pir", "strat_pir_frac")]).

(** model.py 209-236: [_crop_bounding_box].  The latitudes are
    reduced over the last axis, then averaged over the first; the longitudes
    over the middle one.  Missing values in them are not modelled by the mean. *)
Definition mean (l : list xr) : xr := xdiv (fold_left xadd l (XF 0)) (XF (INR (length l))).
(** [np.argmin]: the first of the smallest. *)
Fixpoint argmin_from (i best : nat) (a : xr) (l : list xr) : nat :=
  match l with
  | [] => best
  | b :: r => if xltb b a then argmin_from (S i) i b r else argmin_from (S i) best a r
  end.
Definition argmin (l : list xr) : res nat :=
  match l with [] => Raise ValueError | a :: r => Ok (argmin_from 1 0 a r) end.
Definition nearest (b : xr) (l : list xr) : res nat := argmin (map (fun a => xabs (xsub b a)) l).
(** [slice(a, b)] of positions. *)
Definition span (a b : nat) : list nat := seq a (b - a).
Definition crop_box (m : mobj) (lat_name lon_name : string) (b : box4) : res mobj :=
  let '(b0, b1, b2, b3) := b in
  let x := mds m in
  do la <- getv x lat_name;
  do lo <- getv x lon_name;
  match shape x la, shape x lo with
  | [t1; y1; x1], [t2; y2; x2] =>
      let over_x red j := mean (map (fun t => red (map (fun i => vat la [t; j; i]) (seq 0 x1))) (seq 0 t1)) in
      let over_y red i := mean (map (fun t => red (map (fun j => vat lo [t; j; i]) (seq 0 y2))) (seq 0 t2)) in
      do i0 <- nearest b0 (map (over_x nanmin) (seq 0 y1));
      do i2 <- nearest b2 (map (over_x nanmax) (seq 0 y1));
      do i1 <- nearest b1 (map (over_y nanmin) (seq 0 x2));
      do i3 <- nearest b3 (map (over_y nanmax) (seq 0 x2));
      Ok (with_ds m (keep_along (lon_dim m) (span i1 i3) (keep_along (lat_dim m) (span i0 i2) x)))
  | _, _ => Raise ValueError
  end.

(** *** WRF *)
Record wrf_opts := {
  w_scheme : string;         (* mcphys_scheme *)
  w_nuwrf : bool;
  w_graupel : bool;          (* include_gr_class *)
  w_cutoff : R;              (* q_hyd_truncation_cutoff *)
  w_box : option box4;
  w_range : option (xr * xr)
}.
Definition is_mg (s : string) : bool := memb (lower s) ["mg2"; "mg"; "morrison"].
Definition is_nssl (s : string) : bool := String.eqb (lower s) "nssl".
(** model.py 1142, 1197, 1224-1225: the classes; none for other schemes. *)
Definition wrf_types (o : wrf_opts) : list string :=
  if is_mg (w_scheme o) then ["cl"; "ci"; "pl"; "pi"] ++ (if w_graupel o then ["gr"] else [])
  else if is_nssl (w_scheme o) then ["cl"; "ci"; "pl"; "sn"; "gr"; "ha"] else [].
(** model.py 1165-1166, 1206, 1253-1255: [q_names]. *)
Definition wrf_q (o : wrf_opts) : list (string * string) :=
  if is_mg (w_scheme o) then [("cl", "QCLOUD"); ("ci", "QICE"); ("pl", "QRAIN"); ("pi", "QSNOW")]
                             ++ (if w_graupel o then [("gr", "QGRAUP")] else [])
  else [("cl", "QCLOUD"); ("ci", "QICE"); ("pl", "QRAIN"); ("sn", "QSNOW"); ("gr", "QGRAUP"); ("ha", "QHAIL")].
(** model.py 1168-1169, 1207, 1257-1259: [N_field]. *)
Definition wrf_N (o : wrf_opts) : list (string * string) :=
  if is_mg (w_scheme o) then [("cl", "QNCLOUD"); ("ci", "QNICE"); ("pl", "QNRAIN"); ("pi", "QNSNOW")]
                             ++ (if w_graupel o then [("gr", "QNGRAUPEL")] else [])
  else [("cl", "QNDROP"); ("ci", "QNICE"); ("pl", "QNRAIN"); ("sn", "QNSNOW"); ("gr", "QNGRAUPEL"); ("ha", "QNHAIL")].
(** model.py 1275-1280: the radius fields of NSSL (convective and stratiform). *)
Definition wrf_re : list (string * string) :=
  [("cl", "REFC"); ("ci", "REFI"); ("pl", "REFR"); ("sn", "REFS"); ("gr", "REFG"); ("ha", "REFH")].

Definition grid4 : list string := ["Time"; "bottom_top"; "south_north"; "west_east"].
(** [xr.DataArray(values, dims=(...))]: ValueError unless the shape fits. *)
Definition as_grid (x : xds) (f : xr -> xr) (v : var) : res var :=
  if list_eq_dec Nat.eq_dec (shape x v) (map (sz x) grid4)
  then Ok {| vdims := grid4; vat := fun ix => f (vat v ix) |} else Raise ValueError.

(** model.py 1317-1346: the fields of one class, added to the dictionary. *)
Definition wrf_class (o : wrf_opts) (x : xds) (rho : var) (d : list (string * var)) (h : string)
  : res (list (string * var)) :=
  do p <- getv x "P";
  do z <- as_grid x (fun _ => XF 0) p;
  let d := put (put d "conv_frac" z) ("q" ++ h ++ "c") z in
  do qn <- dget (wrf_q o) h;
  do q <- getv x qn;
  let d := put d ("q" ++ h ++ "s") q in
  do f <- (if memb h ["ci"; "cl"] && w_nuwrf o
           then do c <- getv x "CLDFRA"; as_grid x (fun a => a) c
           else as_grid x (fun a => if xltb (XF (w_cutoff o)) a then XF 1 else XF 0) q);
  let d := put d ("strat_" ++ h ++ "_frac") f in
  do nn <- dget (wrf_N o) h;
  do n <- getv x nn;
  do n' <- vpos x (fun a r => xmul a (xmul r (XF (/ 10 ^ 6)))) n rho;
  let d := put d nn n' in
  if is_nssl (w_scheme o) then
    do rn <- dget wrf_re h; do re <- getv x rn; Ok (put d rn re)
  else Ok d.
Fixpoint wrf_classes (o : wrf_opts) (x : xds) (rho : var) (d : list (string * var)) (hs : list string)
  : res (list (string * var)) :=
  match hs with
  | [] => Ok d
  | h :: r => do d' <- wrf_class o x rho d h; wrf_classes o x rho d' r
  end.
(** model.py 1348-1355: density of particles, 900 where it is not finite. *)
Definition finite_or_900 (a : xr) : xr := match a with XF r => XF r | _ => XF 900 end.
Definition wrf_density (x : xds) (d : list (string * var)) : res (list (string * var)) :=
  do qg <- getv x "QGRAUP"; do vg <- getv x "QVGRAUPEL";
  do qh <- getv x "QHAIL"; do vh <- getv x "QVHAIL";
  (* [xr.DataArray(x, dims=ds["QGRAUP"].dims)]: the dimensions of the quotient must be those *)
  let g := vmap finite_or_900 (vbin xdiv qg vg) in
  let hh := vmap finite_or_900 (vbin xdiv qh vh) in
  if list_eq_dec Nat.eq_dec (shape x g) (shape x qg) then
    if list_eq_dec Nat.eq_dec (shape x hh) (shape x qg) then
      Ok (put (put d "RHO_GRAUPEL" {| vdims := vdims qg; vat := vat g |}) "RHO_HAIL" {| vdims := vdims qg; vat := vat hh |})
    else Raise ValueError
  else Raise ValueError.
(** model.py 1293-1385: the dataset before cropping.  [z] and [tk] are the
    height and temperature computed by wrf-python.  The coordinates of the
    file are kept except "Time" and "XTIME". *)
Definition wrf_fields (o : wrf_opts) (x : xds) (z tk : var) : res (list (string * var)) :=
  do p <- getv x "P"; do pb <- getv x "PB";
  let pres := vmap (fun a => xmul a (XF (/ 100))) (vbin xadd p pb) in
  let d := [("pressure", pres); ("Z", z); ("T", tk)] in
  if is_mg (w_scheme o) || is_nssl (w_scheme o) then
    let rho := vbin xdiv (vmap (fun a => xmul a (XF 100)) pres) (vmap (xmul (XF R_d)) tk) in
    let d := d ++ [("rho_a", rho)] in
    do _ <- (if w_nuwrf o then do _ <- getv x "CLDFRA"; Ok tt else Ok tt);
    do d <- wrf_classes o x rho d (wrf_types o);
    do qv <- getv x "QVAPOR";
    let d := put d "QVAPOR" qv in
    if String.eqb (w_scheme o) "nssl" then wrf_density x d else Ok d
  else Raise KeyError.   (* no temperature field name: no air density; [self.ds["rho_a"]] fails *)
Definition wrf_obj (x : xds) (d : list (string * var)) : mobj :=
  {| mds := {| sz := sz x; coords := filter (fun c => negb (memb (fst c) ["Time"; "XTIME"])) (coords x); vars := d |};
     time_dim := "Time"; height_dim := "bottom_top"; lat_dim := "south_north"; lon_dim := "west_east";
     stacked_time_dim := None |}.
Definition wrf_load (o : wrf_opts) (x : xds) (z tk : var) : res mobj :=
  do d <- wrf_fields o x z tk;
  let m := wrf_obj x d in
  do m1 <- (match w_box o with None => Ok m | Some b => crop_box m "XLAT" "XLONG" b end);
  do m2 <- (match w_range o with None => Ok m1 | Some (t0, t1) => crop_time_range m1 t0 t1 None end);
  check_and_stack m2 "time_lat_lon" true.
