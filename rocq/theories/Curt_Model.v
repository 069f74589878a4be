(** Curtains of emc2/plotting/subcol_display.py: what is handed to
    matplotlib for time-height displays, single profiles and regridded fields,
    and the colour bar of classification masks.  Fonts, axis limits, labels
    and the drawing itself are not modelled; dates are numbers (date2num). *)
From Verif Require Export Disp_Model.
Local Open Scope string_scope.
Local Open Scope list_scope.

(** Coloured cells: [p_x] of each column, [p_y] of each row (edges if
    [p_edges], else centres), values, logarithmic colours, colour limits, hatched cells. *)
Record panel := { p_rows : nat; p_cols : nat; p_edges : bool; p_x : nat -> xr; p_y : nat -> xr;
  p_val : nat -> nat -> xr; p_log : bool; p_lo : option xr; p_hi : option xr; p_hatch : option (nat -> nat -> bool) }.
(** [a.T]. *)
Definition flip_axes (a : arr) : arr := {| ash := rev (ash a); aat := fun ix => aat a (rev ix) |}.
Definition same_shape (a b : arr) : bool := if list_eq_dec Nat.eq_dec (ash a) (ash b) then true else false.
(** matplotlib's [pcolormesh]: coordinates must be finite numbers; as many
    as cells are centres, one more in both directions are edges, anything else fails. *)
Definition pcolormesh (nx ny : nat) (x y : nat -> xr) (a : arr) : res (nat * nat * bool) :=
  match ash a with
  | [r; k] =>
      if negb (forallb (fun i => isfin (x i)) (seq 0 nx) && forallb (fun i => isfin (y i)) (seq 0 ny)) then Raise ValueError
      else if Nat.eqb nx k && Nat.eqb ny r then Ok (r, k, false)
      else if Nat.eqb nx (S k) && Nat.eqb ny (S r) then Ok (r, k, true)
      else Raise TypeError
  | _ => Raise ValueError
  end.
(** [hatched_mask]: a bool or a pattern; an empty pattern counts as false at
    first (432) and is true later (460). *)
Inductive hatching := HBool (b : bool) | HStr (s : string).
Definition truthy (h : hatching) : bool := match h with HBool b => b | HStr s => negb (String.eqb s "") end.
Definition hatches (h : hatching) : bool := match h with HBool b => b | HStr _ => true end.
(** The options of the displays; [o_dated]: the times are dates. *)
Record opts := { o_mask : option arr; o_hatch : hatching; o_log : bool; o_lo : option xr; o_hi : option xr;
  o_titled : bool; o_dated : bool }.
(** 428-437, 569-578, 696-705, 1133-1142: the mask, already transposed. *)
Definition hide (k : option arr) (h : hatching) (a : arr) : arr :=
  match k with
  | Some k => if same_shape k a && negb (truthy h)
              then {| ash := ash a; aat := fun ix => if xleb (aat k ix) (XF 0) then aat a ix else XNaN |} else a
  | None => a
  end.
(** 449-466, 590-607, 710-727, 1154-1171: colours and hatches.  [a] is the
    transposed field.  [np.ma.masked_where] wants equal shapes; [None == 0] is false. *)
Definition draw (nx ny : nat) (x y : nat -> xr) (a : arr) (o : opts) : res panel :=
  let k := option_map flip_axes (o_mask o) in
  let v := hide k (o_hatch o) a in
  do _ <- (if o_log o then match o_lo o, o_hi o with Some _, Some _ => Ok tt | _, _ => Raise UnboundLocalError end else Ok tt);
  do (rk, e) <- pcolormesh nx ny x y v;
  do hat <- (if hatches (o_hatch o) then
               match k with
               | None => Ok (Some (fun _ _ => true))
               | Some k => if same_shape k v then Ok (Some (fun i j => negb (xeqb (aat k [i; j]) (XF 0)))) else Raise IndexError
               end
             else Ok None);
  Ok {| p_rows := fst rk; p_cols := snd rk; p_edges := e; p_x := x; p_y := y; p_val := fun i j => aat v [i; j];
        p_log := o_log o; p_lo := o_lo o; p_hi := o_hi o; p_hatch := hat |}.
(** 473-477, 614-618, 1178-1182: the default title prints the first time as a date. *)
Definition title (o : opts) (n : nat) : res unit :=
  if o_titled o then Ok tt
  else if Nat.eqb n 0 then Raise IndexError
  else if o_dated o then Ok tt else Raise TypeError.
(** A coordinate ([ds[name].values]); only one-dimensional ones are modelled. *)
Definition vector (x : xds) (name : string) : res (nat * (nat -> xr)) :=
  match axis_of x name with
  | None => Raise KeyError
  | Some v => match vdims v with [d] => Ok (sz x d, fun i => vat v [i]) | _ => Raise ValueError end
  end.
(** 400, 1107: [sel(subcolumn=column_no)]: by label if there are labels
    (taken to be distinct), else by position. *)
Definition select_subcolumn (x : xds) (z : Z) : res xds :=
  match assoc (coords x) "subcolumn" with
  | Some c => match find (fun i => xeqb (vat c [i]) (XF (IZR z))) (seq 0 (sz x "subcolumn")) with
              | Some i => Ok (pick_ds "subcolumn" i x)
              | None => Raise KeyError
              end
  | None => if has_dim x "subcolumn" then do i <- position (sz x "subcolumn") z; Ok (pick_ds "subcolumn" i x) else Raise KeyError
  end.
(** 416-426, 683-694, 1120-1129: heights, averaged over the first axis if there are two
    ([np.mean]: NaN spreads); the grid of [x] has one row per level. *)
Definition vertical (m : mobj) (x : xds) (pressure : bool) (zname : string) : res (nat * (nat -> xr)) :=
  if pressure then vector x (height_dim m)
  else
    do v <- getv x zname;
    do (n, y) <- (match vdims v with
                  | [d] => Ok (sz x d, fun i => vat v [i])
                  | [e; d] => Ok (sz x d, fun i => xdiv (xsum (map (fun t => vat v [t; i]) (seq 0 (sz x e)))) (XF (INR (sz x e))))
                  | _ => Raise ValueError
                  end);
    do (np, _) <- vector x (height_dim m);
    if Nat.eqb np n || Nat.eqb np 1 then Ok (n, y) else Raise TypeError.
(** 397-402, 1104-1109. *)
Definition subcolumn_of (d : disp) (name : string) (z : Z) : res xds :=
  do v <- getv (mds (d_model d)) name;
  if Nat.eqb (length (vdims v)) 3 then select_subcolumn (d_ds d) z else Ok (d_ds d).
(** 360-501: [plot_subcolumn_timeseries]. *)
Definition subcolumn_timeseries (d : disp) (name : string) (col : Z) (pressure : bool) (zname : string) (o : opts) : res panel :=
  let m := d_model d in
  do x <- subcolumn_of d name col;
  do (nt, t) <- vector x (time_dim m);
  do (ny, y) <- vertical m x pressure zname;
  do v <- getv x name;
  do p <- draw nt ny t y (flip_axes (values x v)) o;
  do _ <- title o (sz (mds m) (time_dim m));
  Ok p.
(** 1055-1196: [plot_column_input_q_timeseries]: heights in km, mixing ratios in g/kg. *)
Definition scaled (u : R) (a : arr) : arr := {| ash := ash a; aat := fun ix => xmul (aat a ix) (XF u) |}.
Definition q_timeseries (d : disp) (name : string) (col : Z) (pressure : bool) (zname : string) (o : opts) : res panel :=
  let m := d_model d in
  do x <- subcolumn_of d name col;
  do (nt, t) <- vector x (time_dim m);
  do (ny, y) <- vertical m x pressure zname;
  do v <- getv x name;
  do p <- draw nt ny t (fun i => xdiv (y i) (XF 1000)) (scaled 1000 (flip_axes (values x v))) o;
  do _ <- title o (sz (mds m) (time_dim m));
  Ok p.
(** 503-628: [plot_instrument_timeseries]. *)
Definition instrument_timeseries (x : xds) (name : string) (o : opts) : res panel :=
  do yv <- first_of x ["range"; "altitude"; "height"];
  do (nt, t) <- vector x "time";
  do (ny, y) <- (match vdims yv with [d] => Ok (sz x d, fun i => vat yv [i]) | _ => Raise ValueError end);
  do v <- getv x name;
  do p <- draw nt ny t y (flip_axes (values x v)) o;
  do _ <- title o nt;
  Ok p.
(** 630-757: [plot_single_profile]; its default title never fails. *)
Definition subcolumn_count (x : xds) : nat := if has_dim x "subcolumn" then sz x "subcolumn" else 0.
Definition single_profile (d : disp) (name : string) (time : xr) (pressure : bool) (zname : string) (o : opts) : res panel :=
  let m := d_model d in
  do i <- nearest_label (d_ds d) (time_dim m) time;
  let x := pick_ds (time_dim m) i (d_ds d) in
  do (ny, y) <- vertical m x pressure zname;
  do v <- getv x name;
  draw (subcolumn_count (mds m)) ny (fun j => XF (INR j)) y (flip_axes (values x v)) o.

(** 1200-1290, 1293-1386: [plot_regridded_CF_timeseries] and
    [plot_regridded_SR_timeseries].  The array drawn is a view of the array
    given ([squeeze], [.T] and a slice do not copy), which is written to: the
    array of the caller afterwards, and the panel or failure.  Arrays of
    floats; a list of heights. *)
Definition no_opts (titled dated : bool) : opts :=
  {| o_mask := None; o_hatch := HBool false; o_log := false; o_lo := None; o_hi := None; o_titled := titled; o_dated := dated |}.
Definition finish (m : mobj) (nt : nat) (t : nat -> xr) (ys : list xr) (a : arr) (titled dated : bool) : res panel :=
  do p <- draw nt (length ys) t (fun i => nth i ys XNaN) (flip_axes (squeeze a)) (no_opts titled dated);
  do _ <- title (no_opts titled dated) (sz (mds m) (time_dim m));
  Ok p.
Definition slice3 (c : nat) (a : arr) : arr := {| ash := firstn 2 (ash a); aat := fun ix => aat a [nth 0 ix 0; nth 1 ix 0; c] |}.
Definition slice4 (s c : nat) (a : arr) : arr :=
  {| ash := firstn 2 (skipn 1 (ash a)); aat := fun ix => aat a [s; nth 0 ix 0; nth 1 ix 0; c] |}.
Definition regridded_CF (d : disp) (A : arr) (grid : list xr) (col : Z) (titled dated : bool) : arr * res panel :=
  let m := d_model d in
  match vector (d_ds d) (time_dim m) with
  | Raise e => (A, Raise e)
  | Ok (nt, t) =>
      match ash A with
      | [_; _; n] =>
          match position n col with
          | Raise e => (A, Raise e)
          | Ok c =>
              let A' := {| ash := ash A; aat := fun ix => if Nat.eqb (nth 2 ix 0) c && xleb (aat A ix) (XF 0) then XNaN else aat A ix |} in
              (A', finish m nt t grid (slice3 c A') titled dated)
          end
      | _ => (A, Raise IndexError)
      end
  end.
Definition regridded_SR (d : disp) (A : arr) (grid : list xr) (col sub : Z) (titled dated : bool) : arr * res panel :=
  let m := d_model d in
  match vector (d_ds d) (time_dim m) with
  | Raise e => (A, Raise e)
  | Ok (nt, t) =>
      match ash A with
      | [ns; _; _; n] =>
          match position ns sub, position n col with
          | Ok s, Ok c =>
              let A' := {| ash := ash A;
                           aat := fun ix => if Nat.eqb (nth 0 ix 0) s && Nat.eqb (nth 3 ix 0) c && xeqb (aat A ix) (XF 0) then XNaN else aat A ix |} in
              (A', finish m nt t (map (fun z => xmul z (XF 1000)) grid) (slice4 s c A') titled dated)
          | _, _ => (A, Raise IndexError)
          end
      | _ => (A, Raise IndexError)
      end
  end.

(** 303-358: [change_plot_to_class_mask].  The colour table has [b_colours]
    entries over [b_lo, b_hi]; ticks with their labels.  [legend] is the list
    given or, without one, the legend attribute of the variable. *)
Record colourbar := { b_colours : nat; b_lo : R; b_hi : R; b_ticks : list (nat * string) }.
Definition change_plot_to_class_mask (class_legend : option (list string)) (variable : option (option (list string)))
    (cmap : option nat) (zeros_nan : bool) : res colourbar :=
  do legend <- (match class_legend, variable with
                | Some l, _ => Ok l
                | None, None => Raise ValueError
                | None, Some (Some l) => Ok l
                | None, Some None => Raise KeyError
                end);
  let l := length legend in
  let n := match cmap with Some n => n | None => if zeros_nan then l else S l end in
  Ok (if zeros_nan
      then {| b_colours := n; b_lo := 1 / 2; b_hi := INR l + 1 / 2; b_ticks := combine (seq 1 l) legend |}
      else {| b_colours := n; b_lo := - (1 / 2); b_hi := INR l + 1 / 2; b_ticks := combine (seq 0 (S l)) ("clear" :: legend) |}).
