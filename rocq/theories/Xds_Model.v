(** Labelled datasets (xarray) and the dataset operations of
    emc2/core/model.py: cropping in time, removing, finalising, stacking,
    saving and loading subcolumn fields.

    A variable has a list of dimension names and a value for every list of
    positions.  Values are extended reals; datetime64 values are numbers with
    NaT as NaN, booleans 0/1.  Attributes and encodings are not modelled. *)
From Verif Require Export Mom_Base.
Local Open Scope string_scope.
Local Open Scope list_scope.

Record var := { vdims : list string; vat : list nat -> xr }.
Record xds := {
  sz : string -> nat;                  (* length of each dimension *)
  coords : list (string * var);        (* ds.coords *)
  vars : list (string * var)           (* ds.data_vars, i.e. ds.keys() *)
}.
(** A model object (model.py 24-130): its dataset and dimension names. *)
Record mobj := {
  mds : xds;
  time_dim : string; height_dim : string; lat_dim : string; lon_dim : string;
  stacked_time_dim : option string
}.
Definition with_ds (m : mobj) (x : xds) : mobj :=
  {| mds := x; time_dim := time_dim m; height_dim := height_dim m; lat_dim := lat_dim m;
     lon_dim := lon_dim m; stacked_time_dim := stacked_time_dim m |}.

(** [ds.variables], [ds.dims] (order of first appearance). *)
Definition all_vars (x : xds) : list (string * var) := coords x ++ vars x.
Definition all_dims (x : xds) : list string :=
  nodup string_dec (flat_map (fun p => vdims (snd p)) (all_vars x)).
Definition has_dim (x : xds) (d : string) : bool := memb d (all_dims x).
(** Applied to every variable. *)
Definition on_vals (f : var -> var) (l : list (string * var)) : list (string * var) :=
  map (fun p => (fst p, f (snd p))) l.
Definition on_ds (f : var -> var) (x : xds) : xds :=
  {| sz := sz x; coords := on_vals f (coords x); vars := on_vals f (vars x) |}.

(** [a in b] on strings. *)
Fixpoint contains (b a : string) : bool :=
  String.prefix a b || match b with EmptyString => false | String _ b' => contains b' a end.

(** model.py 291-300. *)
Definition num_subcolumns (x : xds) : nat := if has_dim x "subcolumn" then sz x "subcolumn" else 0.

(** model.py 313-323: [remove_subcol_fields].  [drop_vars] keeps every other
    variable. *)
Definition sub_markers : list string := ["sub_col"; "subcol"; "phase_mask"].
Definition remove_subcol_fields (x : xds) (cloud_class : string) : xds :=
  {| sz := sz x; coords := coords x;
     vars := filter (fun p => negb (contains (fst p) cloud_class && existsb (contains (fst p)) sub_markers))
                    (vars x) |}.

(** model.py 325-332: [finalize_subcol_fields]. *)
Definition zero_to_nan (v : xr) : xr := if xeqb v (XF 0) then XNaN else v.
Definition finalize_subcol_fields (x : xds) (more : list string) : xds :=
  {| sz := sz x; coords := coords x;
     vars := map (fun p => (fst p, if existsb (contains (fst p)) ("sub_col" :: more)
                                   then {| vdims := vdims (snd p); vat := fun ix => zero_to_nan (vat (snd p) ix) |}
                                   else snd p)) (vars x) |}.

(** model.py 252-275: [_crop_time_range].  [isel] with a boolean mask keeps
    the positions of the mask; the time coordinate used must lie along the
    time dimension.  A dimension without a coordinate is compared by its
    positions, as [ds[name]] then is [np.arange]. *)
Definition axis_of (x : xds) (name : string) : option var :=
  match assoc (all_vars x) name with
  | Some v => Some v
  | None => if memb name (all_dims x) then Some {| vdims := [name]; vat := fun ix => XF (INR (nth 0 ix 0)) |} else None
  end.
Definition index_of (d : string) (ds : list string) (ix : list nat) : nat :=
  match find (fun p => String.eqb (fst p) d) (combine ds ix) with Some p => snd p | None => 0 end.
Definition isel (d : string) (keep : list nat) (v : var) : var :=
  if memb d (vdims v) then
    {| vdims := vdims v;
       vat := fun ix => vat v (map (fun c => if String.eqb c d then nth (index_of c (vdims v) ix) keep 0
                                             else index_of c (vdims v) ix) (vdims v)) |}
  else v.
Definition crop_time_range (m : mobj) (t0 t1 : xr) (alter : option string) : res mobj :=
  let name := match alter with None => time_dim m | Some a => a end in
  match axis_of (mds m) name with
  | None => Raise KeyError
  | Some tc =>
      match vdims tc with
      | [d] => if negb (String.eqb d (time_dim m)) then Raise ValueError
               else
                 let x := mds m in
                 let keep := filter (fun i => xleb t0 (vat tc [i]) && xltb (vat tc [i]) t1)
                                    (seq 0 (sz x (time_dim m))) in
                 match keep with
                 | [] => Ok m
                 | _ => Ok (with_ds m {| sz := fun d => if String.eqb d (time_dim m) then length keep else sz x d;
                                         coords := on_vals (isel (time_dim m) keep) (coords x);
                                         vars := on_vals (isel (time_dim m) keep) (vars x) |})
                 end
      | _ => Raise ValueError
      end
  end.

(** model.py 592-618: [set_array_to_valid_range], element-wise. *)
Definition nanfold (f : xr -> xr -> bool) (l : list xr) : xr :=   (* np.nanmin / np.nanmax *)
  fold_left (fun a x => if isnan x then a else if isnan a then x else if f x a then x else a) l XNaN.
Definition nanmin := nanfold xltb.
Definition nanmax := nanfold (fun x a => xltb a x).
Definition clamp_to (grid : list xr) (v : xr) : xr :=
  if xltb v (nanmin grid) then nanmin grid
  else if xltb (nanmax grid) v then nanmax grid else v.
(** [np.nanmin] of an empty array raises ValueError. *)
Definition set_array_to_valid_range (a : list xr) (grid : list xr) : res (list xr) :=
  match grid with [] => Raise ValueError | _ => Ok (map (clamp_to grid) a) end.

(** *** Transposition *)
Definition vtrans (order : list string) (v : var) : var :=
  let nd := filter (fun d => memb d (vdims v)) order in
  {| vdims := nd; vat := fun ix => vat v (map (fun d => index_of d nd ix) (vdims v)) |}.
Definition same_set (a b : list string) : bool :=
  forallb (fun x => memb x b) a && forallb (fun x => memb x a) b.
(** [ds.transpose] with a list of names: ValueError unless the order names every dimension. *)
Definition transpose (order : list string) (x : xds) : res xds :=
  if same_set order (all_dims x) then Ok (on_ds (vtrans order) x) else Raise ValueError.

(** model.py 523-546: [permute_dims_for_processing]. *)
Definition permute_dims (m : mobj) (base_order : option (list string)) (first : bool) : res mobj :=
  let x := mds m in
  let base0 := match base_order with None => [time_dim m; height_dim m] | Some b => b end in
  let others := filter (fun d => negb (memb d ("subcolumn" :: base0))) (all_dims x) in
  let base := if has_dim x "subcolumn" then "subcolumn" :: base0 else base0 in
  do x' <- transpose (if first then base ++ others else others ++ base) x;
  Ok (with_ds m x').

(** *** Stacking *)
(** Row-major position of an index in an array of the given shape, and back. *)
Definition size_of (sh : list nat) : nat := fold_right Nat.mul 1 sh.
Fixpoint ravel (sh ix : list nat) : nat :=
  match sh, ix with
  | _ :: sh', i :: ix' => i * size_of sh' + ravel sh' ix'
  | _, _ => 0
  end.
Fixpoint unravel (sh : list nat) (p : nat) : list nat :=
  match sh with
  | [] => []
  | _ :: sh' => p / size_of sh' :: unravel sh' (p mod size_of sh')
  end.
(** [np.reshape(a, new)] for [a] of shape [old]. *)
Definition reshape (old new : list nat) (a : list nat -> xr) : list nat -> xr :=
  fun ix => a (unravel old (ravel new ix)).

(** [Dataset.stack({name: ds})] on a variable: it is broadcast to all stacked
    dimensions, these are moved last, and merged by a reshape. *)
Definition vstack (szf : string -> nat) (name : string) (ds : list string) (v : var) : var :=
  if existsb (fun d => memb d (vdims v)) ds then
    let full := vdims v ++ filter (fun d => negb (memb d (vdims v))) ds in
    let exp := {| vdims := full; vat := fun ix => vat v (firstn (length (vdims v)) ix) |} in
    let rest := filter (fun d => negb (memb d ds)) full in
    let tr := vtrans (rest ++ ds) exp in
    let old := map szf (rest ++ ds) in
    let new := map szf rest ++ [size_of (map szf ds)] in
    {| vdims := rest ++ [name]; vat := reshape old new (vat tr) |}
  else v.
(** The stacked coordinate (a pandas MultiIndex of tuples) is represented by
    the position itself. *)
Definition stack (name : string) (ds : list string) (x : xds) : xds :=
  {| sz := fun d => if String.eqb d name then size_of (map (sz x) ds) else sz x d;
     coords := on_vals (vstack (sz x) name ds) (filter (fun p => negb (memb (fst p) ds)) (coords x))
               ++ [(name, {| vdims := [name]; vat := fun ix => XF (INR (nth 0 ix 0)) |})];
     vars := on_vals (vstack (sz x) name ds) (vars x) |}.

(** [ds.squeeze(dim)] / [isel(dim=0)] on dimensions of length 1. *)
Definition vsqueeze (ds : list string) (v : var) : var :=
  let nd := filter (fun d => negb (memb d ds)) (vdims v) in
  {| vdims := nd;
     vat := fun ix => vat v (map (fun d => if memb d ds then 0 else index_of d nd ix) (vdims v)) |}.

(** [ds[name] = xr.DataArray(values of d, coords={name: ...})]: a new index
    coordinate holding a copy of the values of coordinate [d] (positions when
    the dimension has no coordinate). *)
Definition tmp_coord (d : string) (x : xds) : xds :=
  let v := match assoc (coords x) d with
           | Some v => vat v
           | None => fun ix => XF (INR (nth 0 ix 0))
           end in
  {| sz := fun c => if String.eqb c (d ++ "_tmp")%string then sz x d else sz x c;
     coords := put (coords x) (d ++ "_tmp")%string {| vdims := [(d ++ "_tmp")%string]; vat := v |};
     vars := vars x |}.

(** [ds.expand_dims(d)]: data variables get a leading dimension of length 1;
    a scalar coordinate of that name becomes its index coordinate. *)
Definition expand_dims (d : string) (x : xds) : xds :=
  {| sz := fun c => if String.eqb c d then 1 else sz x c;
     coords := map (fun p => if String.eqb (fst p) d
                             then (fst p, {| vdims := [d]; vat := fun _ => vat (snd p) [] |}) else p) (coords x);
     vars := on_vals (fun v => {| vdims := d :: vdims v; vat := fun ix => vat v (tl ix) |}) (vars x) |}.

(** model.py 400-462: [check_and_stack_time_lat_lon]. *)
Definition check_and_stack (m : mobj) (out_name : string) (order_dim : bool) : res mobj :=
  let x := if has_dim (mds m) (time_dim m) then mds m else expand_dims (time_dim m) (mds m) in
  let m1 :=
    if has_dim x (lat_dim m) then
      let lon := has_dim x (lon_dim m) in
      let many := negb (sz x (lat_dim m) =? 1)%nat || (lon && negb (sz x (lon_dim m) =? 1)%nat) in
      if many then
        let x1 := tmp_coord (lat_dim m) x in
        let x2 := if lon then tmp_coord (lon_dim m) x1 else x1 in
        let x3 := tmp_coord (time_dim m) x2 in
        let ds := if lon then [lat_dim m; lon_dim m; time_dim m] else [lat_dim m; time_dim m] in
        {| mds := stack out_name ds x3; time_dim := out_name; height_dim := height_dim m;
           lat_dim := lat_dim m; lon_dim := lon_dim m; stacked_time_dim := Some (time_dim m) |}
      else
        let ds := if lon then [lat_dim m; lon_dim m] else [lat_dim m] in
        with_ds m (on_ds (vsqueeze ds) x)
    else with_ds m x in
  if order_dim then permute_dims m1 None true else Ok m1.

(** [ds.rename({a: b})] of a dimension and its coordinate. *)
Definition rn (a b s : string) : string := if String.eqb s a then b else s.
Definition rename (a b : string) (x : xds) : xds :=
  let f p := (rn a b (fst p), {| vdims := map (rn a b) (vdims (snd p)); vat := vat (snd p) |}) in
  {| sz := fun d => if String.eqb d b then sz x a else sz x d;
     coords := map f (coords x); vars := map f (vars x) |}.
Definition drop_dims (d : string) (x : xds) : xds :=
  let f (p : string * var) := negb (memb d (vdims (snd p))) in
  {| sz := sz x; coords := filter f (coords x); vars := filter f (vars x) |}.

(** 497-510: a variable whose last dimension is the stacked one is reshaped. *)
Definition vunstack (szf : string -> nat) (name : string) (ds : list string) (v : var) : res var :=
  if memb name (vdims v) then
    let pre := removelast (vdims v) in
    if (szf (last (vdims v) EmptyString) =? size_of (map szf ds))%nat then
      Ok {| vdims := pre ++ ds;
            vat := reshape (map szf (vdims v)) (map szf (pre ++ ds)) (vat v) |}
    else Raise ValueError
  else Ok v.
Fixpoint vunstack_all (szf : string -> nat) (name : string) (ds : list string) (l : list (string * var))
  : res (list (string * var)) :=
  match l with
  | [] => Ok []
  | (k, v) :: l' => do v' <- vunstack szf name ds v; do r <- vunstack_all szf name ds l'; Ok ((k, v') :: r)
  end.
Definition has_coord (x : xds) (d : string) : bool :=
  match assoc (coords x) d with Some _ => true | None => false end.

(** model.py 464-521: [unstack_time_lat_lon]. *)
Definition unstack (m : mobj) (order_dim squeeze_single : bool) : res mobj :=
  match stacked_time_dim m with
  | None => Raise TypeError
  | Some t0 =>
      do m1 <- permute_dims m (Some [height_dim m; time_dim m]) false;
      let x := mds m1 in
      let lon := has_coord x (lon_dim m ++ "_tmp")%string in
      if negb (has_coord x (t0 ++ "_tmp")%string && has_coord x (lat_dim m ++ "_tmp")%string) then Raise KeyError
      else
        let ds := if lon then [lat_dim m ++ "_tmp"; lon_dim m ++ "_tmp"; t0 ++ "_tmp"]%string
                  else [lat_dim m ++ "_tmp"; t0 ++ "_tmp"]%string in
        do vs <- vunstack_all (sz x) (time_dim m) ds (vars x);
        let x1 := drop_dims (time_dim m) {| sz := sz x; coords := coords x; vars := vs |} in
        let x2 := rename (t0 ++ "_tmp")%string t0 (rename (lat_dim m ++ "_tmp")%string (lat_dim m) x1) in
        let x3 := if lon then rename (lon_dim m ++ "_tmp")%string (lon_dim m) x2 else x2 in
        let m2 := {| mds := x3; time_dim := t0; height_dim := height_dim m; lat_dim := lat_dim m;
                     lon_dim := lon_dim m; stacked_time_dim := None |} in
        do m3 <- (if order_dim then permute_dims m2 None true else Ok m2);
        if squeeze_single then
          let x := mds m3 in
          let x := if (sz x t0 =? 1)%nat then on_ds (vsqueeze [t0]) x else x in
          let x := if (num_subcolumns x =? 1)%nat then on_ds (vsqueeze ["subcolumn"]) x else x in
          Ok (with_ds m3 x)
        else Ok m3
  end.

(** *** Saving and loading *)
(** model.py 558-574: the variables written by [subcolumns_to_netcdf].  Each
    kept variable carries the coordinates that lie along its dimensions
    ([ds[name]] is a DataArray); a netCDF file holds them exactly. *)
Definition save_markers (time_dim : string) : list string :=
  ["sub_col"; "subcol"; "strat_"; "conv_"; "_tot"; "_ext"; "_mask"; "_min"; "mpr"; "fpr"; time_dim; "Times"].
Definition marked (time_dim name : string) : bool := existsb (contains name) (save_markers time_dim).
Definition subcolumns_file (m : mobj) : xds :=
  let x := mds m in
  let kept := filter (fun p => marked (time_dim m) (fst p)) (all_vars x) in
  {| sz := sz x;
     coords := filter (fun p => marked (time_dim m) (fst p)
                 || existsb (fun k => forallb (fun d => memb d (vdims (snd k))) (vdims (snd p))) kept) (coords x);
     vars := filter (fun p => marked (time_dim m) (fst p)) (vars x) |}.

(** model.py 576-590: [load_subcolumns_from_netcdf] ([xr.merge] with
    compat="no_conflicts": values must agree where neither is NaN, and NaN is
    filled from the other).  Both datasets must have the same lengths and
    index coordinates (xarray would otherwise take the union of the labels),
    and variables of the same name the same dimensions (else they would be
    broadcast): not modelled, ValueError here, as MergeError is in xarray. *)
Fixpoint positions (sh : list nat) : list (list nat) :=
  match sh with
  | [] => [[]]
  | n :: sh' => flat_map (fun i => map (cons i) (positions sh')) (seq 0 n)
  end.
Definition merge_var (szf : string -> nat) (v w : var) : res var :=
  if (if list_eq_dec string_dec (vdims v) (vdims w) then true else false)
     && forallb (fun ix => isnan (vat v ix) || isnan (vat w ix) || xeqb (vat v ix) (vat w ix))
                (positions (map szf (vdims v)))
  then Ok {| vdims := vdims v; vat := fun ix => if isnan (vat v ix) then vat w ix else vat v ix |}
  else Raise ValueError.
Fixpoint merge_vars (szf : string -> nat) (l f : list (string * var)) : res (list (string * var)) :=
  match f with
  | [] => Ok l
  | (k, w) :: f' =>
      do v <- (match assoc l k with None => Ok w | Some v => merge_var szf v w end);
      merge_vars szf (put l k v) f'
  end.
Definition load_subcolumns (m : mobj) (file : xds) : res mobj :=
  let x := mds m in
  if forallb (fun d => (sz x d =? sz file d)%nat) (filter (fun d => memb d (all_dims file)) (all_dims x)) then
    do cs <- merge_vars (sz file) (coords x) (coords file);
    do vs <- merge_vars (sz file) (vars x) (vars file);
    Ok (with_ds m {| sz := fun d => if has_dim file d then sz file d else sz x d; coords := cs; vars := vs |})
  else Raise ValueError.
