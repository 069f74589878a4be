(** Vocabulary for the dataset operations. *)
From Verif Require Export Xds_Model.
Local Open Scope string_scope.
Local Open Scope list_scope.

(** The value of a variable where each dimension [d] is at position [ix d]. *)
Definition at_ (v : var) (ix : string -> nat) : xr := vat v (map ix (vdims v)).
(** A data field of the dataset. *)
Definition field (x : xds) (name : string) (v : var) : Prop := assoc (vars x) name = Some v.
(** Positions within the dataset. *)
Definition inside (x : xds) (ix : string -> nat) : Prop := forall d, In d (all_dims x) -> ix d < sz x d.
(** No dimension occurs twice in a variable. *)
Definition well_formed (x : xds) : Prop := forall k v, In (k, v) (all_vars x) -> NoDup (vdims v).
(** A name used neither for a variable nor for a dimension. *)
Definition unused (x : xds) (n : string) : Prop :=
  ~ In n (all_dims x) /\ ~ In n (map fst (all_vars x)).
(** [a] occurs somewhere in [b]. *)
Definition occurs_in (a b : string) : Prop := exists p s, b = (p ++ a ++ s)%string.

(** A model that can be stacked under the name [out]: it has the dimensions,
    their names differ, and the new names are free. *)
Record stackable (m : mobj) (out : string) : Prop := {
  st_wf : well_formed (mds m);
  st_time : In (time_dim m) (all_dims (mds m));
  st_lat : In (lat_dim m) (all_dims (mds m));
  st_height : exists k v, In (k, v) (vars (mds m)) /\ In (height_dim m) (vdims v);
  st_names : NoDup [time_dim m; height_dim m; lat_dim m; lon_dim m; "subcolumn"; out;
                    (time_dim m ++ "_tmp")%string; (lat_dim m ++ "_tmp")%string; (lon_dim m ++ "_tmp")%string];
  st_free : forall n, In n [out; (time_dim m ++ "_tmp")%string; (lat_dim m ++ "_tmp")%string;
                            (lon_dim m ++ "_tmp")%string] -> unused (mds m) n;
  st_index : forall d v, In (d, v) (coords (mds m)) -> In d (all_dims (mds m)) -> vdims v = [d];
  st_unstacked : stacked_time_dim m = None
}.
(** It has more than one (lat, lon) column. *)
Definition regional (m : mobj) : Prop :=
  sz (mds m) (lat_dim m) <> 1 \/
  (In (lon_dim m) (all_dims (mds m)) /\ sz (mds m) (lon_dim m) <> 1).

(** Where a (lat, lon, time) column is placed along the stacked dimension. *)
Definition stack_position (m : mobj) (ix : string -> nat) : nat :=
  if in_dec string_dec (lon_dim m) (all_dims (mds m))
  then (ix (lat_dim m) * sz (mds m) (lon_dim m) + ix (lon_dim m)) * sz (mds m) (time_dim m) + ix (time_dim m)
  else ix (lat_dim m) * sz (mds m) (time_dim m) + ix (time_dim m).

(** The number of such columns. *)
Definition stack_size (m : mobj) : nat :=
  if in_dec string_dec (lon_dim m) (all_dims (mds m))
  then sz (mds m) (lat_dim m) * sz (mds m) (lon_dim m) * sz (mds m) (time_dim m)
  else sz (mds m) (lat_dim m) * sz (mds m) (time_dim m).

(** Processing between stacking and unstacking: [x'] keeps the coordinates
    and fields of [x], and may add fields over subcolumns, the stacked
    dimension and height. *)
Record processed (m1 : mobj) (x' : xds) : Prop := {
  pr_sz : forall d, d <> "subcolumn" -> sz x' d = sz (mds m1) d;
  pr_coords : exists l, coords x' = coords (mds m1) ++ l /\ forall k v, In (k, v) l -> k = "subcolumn";
  pr_old : incl (vars (mds m1)) (vars x');
  pr_new : forall k v, In (k, v) (vars x') -> In (k, v) (vars (mds m1)) \/
     (incl (vdims v) ["subcolumn"; time_dim m1; height_dim m1] /\ ~ In k (map fst (coords (mds m1))))
}.

(** Same labels and values. *)
Definition same_var (szf : string -> nat) (v w : var) : Prop :=
  vdims v = vdims w /\ forall ix, (forall d, In d (vdims v) -> ix d < szf d) -> at_ v ix = at_ w ix.

(** The least and greatest number of a table axis (NaN entries are skipped). *)
Definition axis_range (grid : list xr) (lo hi : R) : Prop :=
  In (XF lo) grid /\ In (XF hi) grid /\
  forall g, In g grid -> g = XNaN \/ exists r, g = XF r /\ (lo <= r <= hi)%R.

(** Two values that may be merged: equal, or one of them missing; and the
    result. *)
Definition compatible (a b : xr) : Prop := a = XNaN \/ b = XNaN \/ a = b.
Definition first_known (a b : xr) : xr := match a with XNaN => b | _ => a end.
