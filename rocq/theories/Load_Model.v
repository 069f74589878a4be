(** Reading E3SM / CESM2 model output: emc2/core/model.py 196-207 and 706-896.
    The file is the dataset of the model object; reading it (netCDF,
    act-atmos) and units attributes are not modelled, nor are float32 storage,
    [load_processed] and [time_dim="ncol"]. *)
From Verif Require Export Xds_Model.
Local Open Scope string_scope.
Local Open Scope list_scope.

(** [ds[name]]: coordinate or data variable, KeyError when absent. *)
Definition getv (x : xds) (n : string) : res var :=
  match assoc (all_vars x) n with Some v => Ok v | None => Raise KeyError end.
(** [ds[name] = array]. *)
Definition setv (x : xds) (n : string) (v : var) : xds :=
  {| sz := sz x; coords := coords x; vars := put (vars x) n v |}.
Definition shape (x : xds) (v : var) : list nat := map (sz x) (vdims v).

(** Arithmetic between labelled arrays broadcasts by dimension name; with a
    number, element-wise. *)
Definition vbin (f : xr -> xr -> xr) (v w : var) : var :=
  let D := vdims v ++ filter (fun d => negb (memb d (vdims v))) (vdims w) in
  {| vdims := D;
     vat := fun ix => f (vat v (map (fun d => index_of d D ix) (vdims v)))
                        (vat w (map (fun d => index_of d D ix) (vdims w))) |}.
Definition vmap (f : xr -> xr) (v : var) : var := {| vdims := vdims v; vat := fun ix => f (vat v ix) |}.
(** Arithmetic between [.values] is positional.  Unequal shapes (which numpy
    might broadcast) are not modelled: ValueError. *)
Definition vpos (x : xds) (f : xr -> xr -> xr) (v w : var) : res var :=
  if list_eq_dec Nat.eq_dec (shape x v) (shape x w)
  then Ok {| vdims := vdims v; vat := fun ix => f (vat v ix) (vat w ix) |}
  else Raise ValueError.
(** [v.transpose] with the names of all its dimensions, else ValueError. *)
Definition vtranspose (order : list string) (v : var) : res var :=
  if same_set order (vdims v) then Ok (vtrans order v) else Raise ValueError.

(** model.py 841-846: the height coordinate is reversed, and so is every data variable
    along it; other coordinates along it are not. *)
Definition vflip (n : nat) (d : string) (v : var) : var :=
  if memb d (vdims v) then
    {| vdims := vdims v;
       vat := fun ix => vat v (map (fun c => if String.eqb c d then n - 1 - index_of c (vdims v) ix
                                             else index_of c (vdims v) ix) (vdims v)) |}
  else v.
Definition flip_height (m : mobj) : res mobj :=
  let x := mds m in let h := height_dim m in
  if has_dim x h then
    let c := match assoc (coords x) h with
             | Some v => vat v
             | None => fun ix => XF (INR (nth 0 ix 0))
             end in
    Ok (with_ds m {| sz := sz x;
                     coords := put (coords x) h {| vdims := [h]; vat := fun ix => c [sz x h - 1 - nth 0 ix 0] |};
                     vars := on_vals (vflip (sz x h) h) (vars x) |})
  else Raise KeyError.

(** model.py 744-771, 789-792: field names. *)
Record e3sm_names := {
  f_p : string; f_T : string;
  f_N : list (string * string);       (* N_field *)
  f_re : list (string * string);      (* strat_re_fields *)
  f_q : list (string * string);       (* q_names_stratiform *)
  f_frac : list (string * string)     (* strat_frac_names *)
}.
Definition e3sm_fields (single_ice : bool) : e3sm_names :=
  let pi a := if single_ice then "zeros_cf" else a in
  {| f_p := "p_3d"; f_T := "T";
     f_N := [("cl", "NUMLIQ"); ("ci", "NUMICE"); ("pl", "NUMRAI"); ("pi", pi "NUMSNO")];
     f_re := [("cl", "AREL"); ("ci", "AREI"); ("pi", pi "ADSNOW"); ("pl", "ADRAIN")];
     f_q := [("cl", "CLDLIQ"); ("ci", "CLDICE"); ("pl", "RAINQM"); ("pi", pi "SNOWQM")];
     f_frac := [("cl", "FREQL"); ("ci", "FREQI"); ("pl", "FREQR"); ("pi", pi "FREQS")] |}.
(** model.py 785-794: [hyd_types]. *)
Definition e3sm_types (single_ice rain : bool) : list string :=
  (if rain then ["cl"; "ci"; "pl"] else ["cl"; "ci"]) ++ (if single_ice then [] else ["pi"]).

(** model.py 196-207: [_calc_air_density] (the condition tests the temperature field twice). *)
Definition R_d : R := 287058 / 1000.
Definition calc_air_density (f : e3sm_names) (x : xds) : res xds :=
  match assoc (vars x) (f_T f) with
  | None => Ok x
  | Some t =>
      do p <- getv x (f_p f);
      Ok (setv x "rho_a" (vbin xdiv (vmap (fun a => xmul a (XF 100)) p) (vmap (xmul (XF R_d)) t)))
  end.

(** model.py 850-857: pressure in hPa in the order of the temperature field's
    dimensions, and an array of zeros. *)
Definition e3sm_pressure (f : e3sm_names) (x : xds) : res xds :=
  do p0 <- getv x "P0"; do am <- getv x "hyam"; do ps <- getv x "PS"; do bm <- getv x "hybm";
  do t <- getv x (f_T f);
  let s := vbin xadd (vbin xmul p0 am) (vbin xmul ps bm) in
  do p <- vtranspose (vdims t) (vmap (fun a => xdiv a (XF 100)) s);
  let x1 := setv x (f_p f) p in
  calc_air_density f (setv x1 "zeros_cf" (vmap (fun _ => XF 0) p)).

Definition dget {A} (l : list (string * A)) (k : string) : res A :=
  match assoc l k with Some v => Ok v | None => Raise KeyError end.
Definition is_precip (h : string) : bool := String.prefix "p" h.

(** model.py 858-868: one hydrometeor class: number per kg to cm-3, radius in um for
    precipitation, zero radii to NaN.  ([x.values *= ...] and
    [x.values = ...] replace the values of an existing variable.) *)
Definition e3sm_class (f : e3sm_names) (x : xds) (h : string) : res xds :=
  do nn <- dget (f_N f) h;
  do n <- getv x nn; do rho <- getv x "rho_a";
  do n' <- vpos x (fun a r => xmul a (xdiv r (XF (10 ^ 6)))) n rho;
  let x1 := setv x nn n' in
  do rn <- dget (f_re f) h;
  do re <- getv x1 rn;
  let re1 := if is_precip h then vmap (fun a => xmul a (XF (5 / 10 * 10 ^ 6))) re else re in
  Ok (setv x1 rn (vmap zero_to_nan re1)).

(** model.py 870-891: additional fields for P3 ice.  The [where] of 872-874 returns a
    new array that is not stored, so it has no effect except that both fields
    must exist. *)
Definition e3sm_p3 (f : e3sm_names) (x : xds) : res xds :=
  do qn <- dget (f_q f) "ci"; do q <- getv x qn; do rim <- getv x "CLDRIM";
  do nn <- dget (f_N f) "ci"; do n <- getv x nn;
  do fn <- dget (f_frac f) "ci"; do fr <- getv x fn;
  do ni0 <- vpos x xdiv n fr;
  let ni := vmap (fun a => xmul a (XF (10 ^ 6))) ni0 in
  let x1 := setv x "in_cld_Ni" ni in
  do Fr <- vpos x xdiv rim q;
  let Fr := {| vdims := vdims n; vat := vat Fr |} in
  let x2 := setv x1 "Fr" Fr in
  do vol <- getv x2 "BVRIM";
  do rr <- vpos x xdiv rim vol;
  do rr1 <- vpos x (fun a r => if xeqb a (XF 0) then XF 0 else r) Fr rr;
  let x3 := setv x2 "rho_r" {| vdims := vdims n; vat := vat rr1 |} in
  do qf <- vpos x xdiv q fr;
  do qn1 <- vpos x xdiv qf ni;
  Ok (setv x3 "qi_norm" {| vdims := vdims n; vat := vat qn1 |}).

(** model.py 859-891: the loop over the classes. *)
Fixpoint e3sm_loop (f : e3sm_names) (p3 : bool) (hs : list string) (x : xds) : res xds :=
  match hs with
  | [] => Ok x
  | h :: hs' =>
      do x1 <- e3sm_class f x h;
      do x2 <- (if p3 && String.eqb h "ci" then e3sm_p3 f x1 else Ok x1);
      e3sm_loop f p3 hs' x2
  end.

Record e3sm_opts := {
  o_single_ice : bool; o_rain : bool;
  o_scheme : string;                          (* mcphys_scheme *)
  o_range : option (xr * xr)                  (* time_range *)
}.
(** model.py 832-894, for files without appended names. *)
Definition e3sm_load (o : e3sm_opts) (m : mobj) : res mobj :=
  do m1 <- (match o_range o with None => Ok m | Some (a, b) => crop_time_range m a b None end);
  do m2 <- flip_height m1;
  do m3 <- check_and_stack m2 "time_lat_lon" false;
  let f := e3sm_fields (o_single_ice o) in
  do x <- e3sm_pressure f (mds m3);
  do x' <- e3sm_loop f (String.eqb (o_scheme o) "P3") (e3sm_types (o_single_ice o) (o_rain o)) x;
  permute_dims (with_ds m3 x') None true.
