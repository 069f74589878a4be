(** Vocabulary for reading E3SM output. *)
From Verif Require Export Load_Model Xds_Spec.
Local Open Scope string_scope.
Local Open Scope list_scope.

(** Where the grid box of the file at positions [ix] is found after loading:
    the other end of the height dimension and, when latitude, longitude and
    time are stacked, its column's position. *)
Definition place (m : mobj) (ix : string -> nat) (d : string) : nat :=
  if string_dec d (height_dim m) then sz (mds m) (height_dim m) - 1 - ix (height_dim m)
  else if string_dec d "time_lat_lon" then stack_position m ix
  else ix d.

(** The three kinds of domain: several columns, none, or one. *)
Inductive domain (m : mobj) : Prop :=
| several : stackable m "time_lat_lon" -> regional m -> domain m
| no_lat : ~ In (lat_dim m) (all_dims (mds m)) -> In (time_dim m) (all_dims (mds m)) -> domain m
| one : In (lat_dim m) (all_dims (mds m)) -> In (time_dim m) (all_dims (mds m)) -> ~ regional m ->
        NoDup [time_dim m; height_dim m; lat_dim m; lon_dim m] -> domain m.

(** The names written while loading. *)
Definition loaded_names : list string := ["p_3d"; "zeros_cf"; "rho_a"; "in_cld_Ni"; "Fr"; "rho_r"; "qi_norm"].
(** A file whose fields have the usual dimensions. *)
Record e3sm_file (m : mobj) (f : e3sm_names) (hs : list string) (T : var) : Prop := {
  ef_wf : well_formed (mds m);
  ef_index : forall v, In (height_dim m, v) (coords (mds m)) -> vdims v = [height_dim m];
  ef_out : ~ In "time_lat_lon" (all_dims (mds m));
  ef_height_name : ~ In (height_dim m) [time_dim m; lat_dim m; lon_dim m; "time_lat_lon"; "subcolumn"];
  ef_time_name : time_dim m <> "subcolumn";
  ef_T : field (mds m) "T" T;
  ef_T_dims : In (time_dim m) (vdims T) /\ In (height_dim m) (vdims T);
  ef_P0 : exists v, field (mds m) "P0" v /\ vdims v = [];
  ef_hyam : exists v, field (mds m) "hyam" v /\ vdims v = [height_dim m];
  ef_hybm : exists v, field (mds m) "hybm" v /\ vdims v = [height_dim m];
  ef_PS : exists v, field (mds m) "PS" v /\ forall d, In d (vdims T) <-> In d (vdims v) \/ d = height_dim m;
  ef_class : forall h, In h hs -> exists nn rn n re,
     assoc (f_N f) h = Some nn /\ assoc (f_re f) h = Some rn /\
     field (mds m) nn n /\ field (mds m) rn re /\ vdims n = vdims T /\ vdims re = vdims T;
  ef_coords : forall k, In k (loaded_names ++ map fst (vars (mds m))) ->
     ~ In k (map fst (coords (mds m))) /\
     ~ In k [height_dim m; "time_lat_lon"; (time_dim m ++ "_tmp")%string; (lat_dim m ++ "_tmp")%string; (lon_dim m ++ "_tmp")%string]
}.

(** The fields of E3SM output, and its hydrometeor classes: snow is separate
    unless ice is a single class, rain unless it is not predicted. *)
Definition e3sm_usual (single_ice : bool) : e3sm_names :=
  let snow a := if single_ice then "zeros_cf" else a in
  {| f_p := "p_3d"; f_T := "T";
     f_N := [("cl", "NUMLIQ"); ("ci", "NUMICE"); ("pl", "NUMRAI"); ("pi", snow "NUMSNO")];
     f_re := [("cl", "AREL"); ("ci", "AREI"); ("pi", snow "ADSNOW"); ("pl", "ADRAIN")];
     f_q := [("cl", "CLDLIQ"); ("ci", "CLDICE"); ("pl", "RAINQM"); ("pi", snow "SNOWQM")];
     f_frac := [("cl", "FREQL"); ("ci", "FREQI"); ("pl", "FREQR"); ("pi", snow "FREQS")] |}.
Definition e3sm_classes (single_ice rain : bool) : list string :=
  (if rain then ["cl"; "ci"; "pl"] else ["cl"; "ci"]) ++ (if single_ice then [] else ["pi"]).
Definition output_file (o : e3sm_opts) (m : mobj) (T : var) : Prop :=
  e3sm_file m (e3sm_usual (o_single_ice o)) (e3sm_classes (o_single_ice o) (o_rain o)) T.

(** The fields that P3 ice also needs. *)
Definition p3_file (m : mobj) (T : var) : Prop :=
  forall k, In k ["CLDICE"; "CLDRIM"; "FREQI"; "BVRIM"] -> exists v, field (mds m) k v /\ vdims v = vdims T.

(** Field [k] holds [val ix] for the grid box of the file at [ix]. *)
Definition loaded (m m' : mobj) (k : string) (val : (string -> nat) -> xr) : Prop :=
  exists v', field (mds m') k v' /\ forall ix, inside (mds m) ix -> at_ v' (place m ix) = val ix.
(** The values of the file. *)
Definition raw (m : mobj) (k : string) (ix : string -> nat) : xr :=
  match assoc (vars (mds m)) k with Some v => at_ v ix | None => XNaN end.

(** Pressure (hPa) from the hybrid coordinates, density of dry air (kg m-3),
    number per cm3 from number per kg. *)
Definition pressure (m : mobj) (ix : string -> nat) : xr :=
  xdiv (xadd (xmul (raw m "P0" ix) (raw m "hyam" ix)) (xmul (raw m "PS" ix) (raw m "hybm" ix))) (XF 100).
Definition density (m : mobj) (ix : string -> nat) : xr :=
  xdiv (xmul (pressure m ix) (XF 100)) (xmul (XF (287058 / 1000)) (raw m "T" ix)).
Definition number (m : mobj) (k : string) (ix : string -> nat) : xr :=
  xmul (raw m k ix) (xdiv (density m ix) (XF (10 ^ 6))).
(** Radii: precipitation diameters in m become radii in um, zeros become NaN. *)
Definition radius (h : string) (a : xr) : xr :=
  let r := if String.prefix "p" h then xmul a (XF (5 / 10 * 10 ^ 6)) else a in
  if xeqb r (XF 0) then XNaN else r.
(** P3 ice: number in cloud (m-3), rime fraction. *)
Definition in_cloud_number (m : mobj) (ix : string -> nat) : xr :=
  xmul (xdiv (number m "NUMICE" ix) (raw m "FREQI" ix)) (XF (10 ^ 6)).
Definition rime_fraction (m : mobj) (ix : string -> nat) : xr := xdiv (raw m "CLDRIM" ix) (raw m "CLDICE" ix).
(** Number and radius fields of the classes in E3SM output. *)
Definition class_fields : list (string * (string * string)) :=
  [("cl", ("NUMLIQ", "AREL")); ("ci", ("NUMICE", "AREI")); ("pl", ("NUMRAI", "ADRAIN")); ("pi", ("NUMSNO", "ADSNOW"))].
