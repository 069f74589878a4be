(** Vocabulary for reading ModelE, DHARMA and WRF output. *)
From Verif Require Export Read_Model Load_Spec.
From Coq Require Export Sorted.
Local Open Scope string_scope.
Local Open Scope list_scope.

(** [keep d]: the positions along [d] that satisfy [P], in their order. *)
Definition selects (x : xds) (P : string -> nat -> Prop) (keep : string -> list nat) : Prop :=
  forall d, In d (all_dims x) -> StronglySorted lt (keep d) /\ forall i, In i (keep d) <-> i < sz x d /\ P d i.
(** Where the kept grid box number [ix] is found after reading: unchanged, or
    at its column when latitude, longitude and time are stacked. *)
Definition column (m : mobj) (keep : string -> list nat) (ix : string -> nat) : nat :=
  if in_dec string_dec (lon_dim m) (all_dims (mds m))
  then (ix (lat_dim m) * length (keep (lon_dim m)) + ix (lon_dim m)) * length (keep (time_dim m)) + ix (time_dim m)
  else ix (lat_dim m) * length (keep (time_dim m)) + ix (time_dim m).
Definition spot (m : mobj) (keep : string -> list nat) (ix : string -> nat) (d : string) : nat :=
  if string_dec d "time_lat_lon" then column m keep ix else ix d.
(** The number of grid boxes along [d] after reading. *)
Definition extent (m : mobj) (keep : string -> list nat) (d : string) : nat :=
  if string_dec d "time_lat_lon" then
    if in_dec string_dec (lon_dim m) (all_dims (mds m))
    then length (keep (lat_dim m)) * length (keep (lon_dim m)) * length (keep (time_dim m))
    else length (keep (lat_dim m)) * length (keep (time_dim m))
  else length (keep d).
(** Field [k] of the result holds, for every kept grid box, the value
    [val] of that box of the file, and holds no other box. *)
Definition held (m : mobj) (keep : string -> list nat) (m' : mobj) (k : string) (val : (string -> nat) -> xr) : Prop :=
  exists v', field (mds m') k v' /\ (forall d, In d (vdims v') -> sz (mds m') d = extent m keep d) /\
  forall ix, (forall d, In d (all_dims (mds m)) -> ix d < length (keep d)) ->
    at_ v' (spot m keep ix) = val (fun d => nth (ix d) (keep d) 0).

(** A file with a field [T] over time and height, and names that do not clash. *)
Record gridded (m : mobj) (T : var) : Prop := {
  gr_out : ~ In "time_lat_lon" (all_dims (mds m));
  gr_height : ~ In (height_dim m) [time_dim m; lat_dim m; lon_dim m; "time_lat_lon"; "subcolumn"];
  gr_dims : In (time_dim m) (vdims T) /\ In (height_dim m) (vdims T);
  gr_axis : forall c, assoc (all_vars (mds m)) (time_dim m) = Some c -> vdims c = [time_dim m]
}.

(** The time of step [i] (its number when the file has no time coordinate). *)
Definition time_value (x : xds) (td : string) (i : nat) : xr :=
  match assoc (all_vars x) td with Some c => at_ c (fun _ => i) | None => XF (INR i) end.
(** Step [i] lies in [t0, t1). *)
Definition in_range (r : option (R * R)) (x : xds) (td : string) (i : nat) : Prop :=
  match r with
  | None => True
  | Some (t0, t1) => exists t, time_value x td i = XF t /\ (t0 <= t < t1)%R
  end.
Definition some_step (r : option (R * R)) (x : xds) (td : string) : Prop :=
  r <> None -> exists i, i < sz x td /\ in_range r x td i.
(** A range given as datetime64 values. *)
Definition as_datetime (r : option (R * R)) : option trange :=
  match r with None => None | Some (a, b) => Some {| r_datetime := true; r_start := XF a; r_stop := XF b |} end.

(** Density of dry air (kg m-3) from pressure (hPa) and temperature (K). *)
Definition dry_air (p t : xr) : xr := xdiv (xmul p (XF 100)) (xmul (XF (287058 / 1000)) t).

(** The coordinate of [d]: increasing real numbers. *)
Definition ascending (x : xds) (d : string) (c : nat -> R) : Prop :=
  exists v, assoc (coords x) d = Some v /\ (forall i, i < sz x d -> at_ v (fun _ => i) = XF (c i)) /\ vdims v = [d] /\
  forall i j, i < j < sz x d -> (c i < c j)%R.
(** A box (x min, y min, x max, y max) of real numbers; in it. *)
Definition box_of (b : option (R * R * R * R)) : option box4 :=
  match b with None => None | Some (x0, y0, x1, y1) => Some (XF x0, XF y0, XF x1, XF y1) end.
Definition in_box (b : option (R * R * R * R)) (cx cy : nat -> R) (d : string) (i : nat) : Prop :=
  match b with
  | None => True
  | Some (x0, y0, x1, y1) => (d = "x" -> x0 <= cx i <= x1)%R /\ (d = "y" -> y0 <= cy i <= y1)%R
  end.

(** *** WRF *)
Inductive family := MG | NSSL.
(** The scheme by its name, in any case. *)
Definition family_of (s : string) (f : family) : Prop :=
  match f with MG => In (lower s) ["mg2"; "mg"; "morrison"] | NSSL => lower s = "nssl" end.
Definition classes (f : family) (graupel : bool) : list string :=
  match f with
  | MG => ["cl"; "ci"; "pl"; "pi"] ++ (if graupel then ["gr"] else [])
  | NSSL => ["cl"; "ci"; "pl"; "sn"; "gr"; "ha"]
  end.
Definition look (l : list (string * string)) (h : string) : string := match assoc l h with Some s => s | None => "" end.
(** The fields of the file with the mass, number and radius of a class. *)
Definition mass_field (h : string) : string :=
  look [("cl", "QCLOUD"); ("ci", "QICE"); ("pl", "QRAIN"); ("pi", "QSNOW"); ("sn", "QSNOW"); ("gr", "QGRAUP"); ("ha", "QHAIL")] h.
Definition number_field (f : family) (h : string) : string :=
  look [("cl", match f with MG => "QNCLOUD" | NSSL => "QNDROP" end); ("ci", "QNICE"); ("pl", "QNRAIN"); ("pi", "QNSNOW");
        ("sn", "QNSNOW"); ("gr", "QNGRAUPEL"); ("ha", "QNHAIL")] h.
Definition radius_field (h : string) : string :=
  look [("cl", "REFC"); ("ci", "REFI"); ("pl", "REFR"); ("sn", "REFS"); ("gr", "REFG"); ("ha", "REFH")] h.
Definition wrf_needed (o : wrf_opts) (f : family) : list string :=
  ["P"; "PB"; "QVAPOR"] ++ map mass_field (classes f (w_graupel o)) ++ map (number_field f) (classes f (w_graupel o))
  ++ (match f with NSSL => map radius_field (classes f false) | MG => [] end)
  ++ (if w_nuwrf o then ["CLDFRA"] else []) ++ (if string_dec (w_scheme o) "nssl" then ["QVGRAUPEL"; "QVHAIL"] else []).
Definition mass_grid : list string := ["Time"; "bottom_top"; "south_north"; "west_east"].
(** A WRF file whose fields lie on the mass grid, and the height and
    temperature computed from it. *)
Record wrf_file (o : wrf_opts) (f : family) (x : xds) (z tk : var) : Prop := {
  wf_coords : forall k v, In (k, v) (coords x) -> NoDup (vdims v) /\ incl (vdims v) mass_grid /\ (In k mass_grid -> vdims v = [k]) /\
     ~ In k ["time_lat_lon"; "Time_tmp"; "south_north_tmp"; "west_east_tmp"] /\ ~ In k (wrf_needed o f);
  wf_fields : forall k, In k (wrf_needed o f) -> exists v, field x k v /\ vdims v = mass_grid;
  wf_z : vdims z = mass_grid;
  wf_tk : vdims tk = mass_grid
}.
Definition val (x : xds) (k : string) (ix : string -> nat) : xr :=
  match assoc (vars x) k with Some v => at_ v ix | None => XNaN end.
(** Pressure (hPa), density of air, number per cm3. *)
Definition wrf_pressure (x : xds) (ix : string -> nat) : xr := xmul (xadd (val x "P" ix) (val x "PB" ix)) (XF (/ 100)).
Definition wrf_rho (x : xds) (tk : var) (ix : string -> nat) : xr := dry_air (wrf_pressure x ix) (at_ tk ix).
Definition per_cm3 (n rho : xr) : xr := xmul n (xmul rho (XF (/ 10 ^ 6))).
(** Cloud fraction: 1 where the mass exceeds the cutoff, else 0 (that of the
    file for cloud classes of NU-WRF). *)
Definition fraction (o : wrf_opts) (x : xds) (h : string) (ix : string -> nat) : xr :=
  if w_nuwrf o && (if in_dec string_dec h ["cl"; "ci"] then true else false) then val x "CLDFRA" ix
  else if xltb (XF (w_cutoff o)) (val x (mass_field h) ix) then XF 1 else XF 0.
(** Density of a particle; 900 where mass over volume is not a number. *)
Definition particle_density (q v : xr) : xr := match xdiv q v with XF r => XF r | _ => XF 900 end.

(** The first of the [n] values closest to [b]. *)
Definition closest (c : nat -> R) (n : nat) (b : R) (i : nat) : Prop :=
  i < n /\ forall j, j < n -> (Rabs (b - c i) <= Rabs (b - c j))%R /\ (j < i -> (Rabs (b - c i) < Rabs (b - c j))%R).
(** Latitude depends on the row and longitude on the column only. *)
Definition regular (x : xds) (lat lon : nat -> R) : Prop :=
  0 < sz x "Time" /\ 0 < sz x "south_north" /\ 0 < sz x "west_east" /\
  exists la lo, assoc (coords x) "XLAT" = Some la /\ assoc (coords x) "XLONG" = Some lo /\
    vdims la = ["Time"; "south_north"; "west_east"] /\ vdims lo = ["Time"; "south_north"; "west_east"] /\
    forall t j i, t < sz x "Time" -> j < sz x "south_north" -> i < sz x "west_east" ->
      vat la [t; j; i] = XF (lat j) /\ vat lo [t; j; i] = XF (lon i).
(** What a box (lat min, lon min, lat max, lon max) keeps: from the row
    closest to its lower edge up to, not including, the one closest to its
    upper edge. *)
Definition box_keeps (b : option (R * R * R * R)) (x : xds) (lat lon : nat -> R) (d : string) (j : nat) : Prop :=
  match b with
  | None => True
  | Some (b0, b1, b2, b3) =>
      (d = "south_north" -> exists i0 i2, closest lat (sz x "south_north") b0 i0 /\ closest lat (sz x "south_north") b2 i2 /\ i0 <= j < i2) /\
      (d = "west_east" -> exists i1 i3, closest lon (sz x "west_east") b1 i1 /\ closest lon (sz x "west_east") b3 i3 /\ i1 <= j < i3)
  end.
