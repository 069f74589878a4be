(** Data shown by emc2/plotting/subcol_display.py: choice of latitude and
    longitude, mean profiles.  Drawing itself (matplotlib), labels and colours
    are not modelled. *)
From Verif Require Export Load_Model Read_Model.
Local Open Scope string_scope.
Local Open Scope list_scope.

(** [ds.isel({d: i})] with one position: the dimension goes. *)
Definition pick (d : string) (i : nat) (v : var) : var :=
  if memb d (vdims v) then
    let nd := filter (fun c => negb (String.eqb c d)) (vdims v) in
    {| vdims := nd; vat := fun ix => vat v (map (fun c => if String.eqb c d then i else index_of c nd ix) (vdims v)) |}
  else v.
Definition pick_ds (d : string) (i : nat) (x : xds) : xds :=
  {| sz := sz x; coords := on_vals (pick d i) (coords x); vars := on_vals (pick d i) (vars x) |}.
(** Python positions: negative ones count from the end. *)
Definition position (n : nat) (z : Z) : res nat :=
  if (0 <=? z)%Z && (z <? Z.of_nat n)%Z then Ok (Z.to_nat z)
  else if (z <? 0)%Z && (- Z.of_nat n <=? z)%Z then Ok (Z.to_nat (Z.of_nat n + z))
  else Raise IndexError.
(** [ds.sel({d: v}, method='nearest')]: of two equally near labels the larger
    one (pandas); labels must be strictly monotone. *)
Fixpoint nearest_from (v : xr) (i best : nat) (a : xr) (l : list xr) : nat :=
  match l with
  | [] => best
  | b :: r =>
      let da := xabs (xsub v a) in let db := xabs (xsub v b) in
      if xltb db da || (xeqb db da && xltb a b) then nearest_from v (S i) i b r
      else nearest_from v (S i) best a r
  end.
Definition strictly (lt : xr -> xr -> bool) (l : list xr) : bool :=
  forallb (fun p => lt (fst p) (snd p)) (combine l (tl l)).
Definition nearest_label (x : xds) (d : string) (v : xr) : res nat :=
  match assoc (coords x) d with
  | None => Raise ValueError
  | Some c =>
      let l := map (fun i => vat c [i]) (seq 0 (sz x d)) in
      if negb (strictly xltb l || strictly (fun a b => xltb b a) l) then Raise ValueError
      else match l with [] => Raise KeyError | a :: r => if isnan v then Raise KeyError else Ok (nearest_from v 1 0 a r) end
  end.

(** subcol_display.py 84-156.  A choice is a float, an int, or something else
    (numpy integers are neither). *)
Inductive choice := CNone | CFloat (v : xr) | CInt (z : Z) | COther.
Definition choose (d : string) (c : choice) (x : xds) : res xds :=
  if has_dim x d then
    match c with
    | CFloat v => do i <- nearest_label x d v; Ok (pick_ds d i x)
    | CInt z => do i <- position (sz x d) z; Ok (pick_ds d i x)
    | _ => Ok x
    end
  else Ok x.
Definition is_none (c : choice) : bool := match c with CNone => true | _ => false end.
(** 113-156: [_switch_lat_lon]; [own] is the model of the display, [arg] the one given. *)
Definition switch_lat_lon (own arg : mobj) (la lo : choice) (deep : bool) : res mobj :=
  if is_none la && is_none lo then Ok own
  else if has_dim (mds own) (lat_dim own) || has_dim (mds own) (lon_dim own) then
    let own := if deep then with_ds own (mds arg) else own in
    do x <- choose (lat_dim own) la (mds own);
    do y <- choose (lon_dim own) lo x;
    Ok (with_ds own y)
  else Ok own.
Definition or_zero (c : choice) : choice := match c with CNone => CInt 0 | _ => c end.
Definition crop_lat_lon (own arg : mobj) (la lo : choice) (deep : bool) : res mobj :=
  switch_lat_lon own arg (or_zero la) (or_zero lo) deep.
(** 50-82: the display keeps a copy of the model if it has one of the two
    dimensions, else the model itself.  The model of the caller afterwards, the model
    of the display, and the dataset drawn from. *)
Record disp := { d_model : mobj; d_ds : xds }.
Definition display (m : mobj) (la lo : choice) : res (mobj * disp) :=
  let copied := has_dim (mds m) (lat_dim m) || has_dim (mds m) (lon_dim m) in
  do mc <- crop_lat_lon m m la lo true;
  Ok (if copied then m else mc, {| d_model := mc; d_ds := mds mc |}).
(** 158-172: [_switch_model]. *)
Definition switch_model (m : mobj) : disp := {| d_model := m; d_ds := mds m |}.

(** 174-206: [calc_mean_and_sd] of the values along the averaged axes.
    Masked entries are NaN here; numpy leaves out both. *)
Definition nonnan (l : list xr) : list xr := filter (fun a => negb (isnan a)) l.
Definition nanmean (l : list xr) : xr := xdiv (xsum (nonnan l)) (XF (INR (length (nonnan l)))).
Definition nanstd (l : list xr) : xr :=
  let m := nanmean l in
  xsqrt (xdiv (xsum (map (fun a => xmul (xsub a m) (xsub a m)) (nonnan l))) (XF (INR (length (nonnan l))))).
Definition xln (a : xr) : xr :=
  match a with
  | XF x => if Rlt_dec 0 x then XF (ln x) else if Rlt_dec x 0 then XNaN else XM
  | XP => XP
  | _ => XNaN
  end.
Definition calc_mean_and_sd (geom : bool) (l : list xr) : xr * xr :=
  if geom then
    let fin a := isfin a && xltb (XF 0) a in
    let n := length (filter fin l) in
    let logs := map (fun a => xln (if fin a then a else XNaN)) l in
    (xexp (xmul (xdiv (XF 1) (XF (INR n))) (xsum (nonnan logs))), xexp (nanstd logs))
  else (nanmean l, nanstd l).

(** Arrays without labels. *)
Record arr := { ash : list nat; aat : list nat -> xr }.
Definition values (x : xds) (v : var) : arr := {| ash := shape x v; aat := vat v |}.
Fixpoint expand (sh ix : list nat) : list nat :=
  match sh with
  | [] => []
  | n :: r => if Nat.eqb n 1 then 0 :: expand r ix else hd 0 ix :: expand r (tl ix)
  end.
(** [squeeze]. *)
Definition squeeze (a : arr) : arr :=
  {| ash := filter (fun n => negb (Nat.eqb n 1)) (ash a); aat := fun ix => aat a (expand (ash a) ix) |}.

(** 835-844, 977-983: [np.ma.masked_where(~np.isfinite(..))], then
    [np.where(Mask_array <= 0, .., nan)], which works on the data under the mask. *)
Definition masked (mask : option arr) (a : arr) : arr :=
  let hidden := {| ash := ash a; aat := fun ix => if isfin (aat a ix) then aat a ix else XNaN |} in
  match mask with
  | None => hidden
  | Some k =>
      if list_eq_dec Nat.eq_dec (ash k) (ash a)
      then {| ash := ash a; aat := fun ix => if xleb (aat k ix) (XF 0) then aat a ix else XNaN |}
      else hidden
  end.
(** The averaged axes: all but the last, of arrays with two or three; with any
    other number the mean is never computed. *)
Definition columns (a : arr) : res (nat * (nat -> list xr)) :=
  match ash a with
  | [p; n] => Ok (n, fun k => map (fun i => aat a [i; k]) (seq 0 p))
  | [p; q; n] => Ok (n, fun k => flat_map (fun i => map (fun j => aat a [i; j; k]) (seq 0 q)) (seq 0 p))
  | _ => Raise UnboundLocalError
  end.
(** 804-813: [use_geom_mean]. *)
Inductive gchoice := GBool (b : bool) | GStr (s : string).
Definition gmean_fields : list string := ["alpha"; "beta"; "OD"; "Ze"; "backscatter"; "extinction"; "reflectivity"].
Definition use_geom (g : gchoice) (name : string) : bool :=
  match g with GBool b => b | GStr s => String.eqb s "auto" && existsb (contains name) gmean_fields end.
(** 846-870: line and band of one level.  [np.finfo(float).eps] is 2^-52. *)
Definition eps : R := / 2 ^ 52.
Definition level (ze geom : bool) (l : list xr) : xr * xr * xr :=
  if ze then
    let '(m, s) := calc_mean_and_sd geom (map (fun a => xpow (XF 10) (xdiv a (XF 10))) l) in
    let db a := xmul (XF 10) (xlog10 a) in
    (db m, if xltb s m then db (xsub m s) else db (XF eps), db (xadd m s))
  else
    let '(m, s) := calc_mean_and_sd geom l in (m, xsub m s, xadd m s).
(** 828-833: pressure or height, averaged over its first axis if it has two;
    more axes fail when drawn. *)
Definition heights (a : arr) : res (nat * (nat -> xr)) :=
  match ash a with
  | [n] => Ok (n, fun k => aat a [k])
  | [p; n] => Ok (n, fun k => nanmean (map (fun i => aat a [i; k]) (seq 0 p)))
  | _ => Raise ValueError
  end.
(** 816-826: all times, the one nearest to a time, or those of a range. *)
Inductive when := WAll | WOne (t : xr) | WRange (t0 t1 : xr).
Definition at_times (m : mobj) (w : when) (x : xds) : res xds :=
  match w with
  | WAll => Ok x
  | WOne t => do i <- nearest_label x (time_dim m) t; Ok (pick_ds (time_dim m) i x)
  | WRange t0 t1 =>
      match axis_of x (time_dim m) with
      | None => Raise KeyError
      | Some c => Ok (keep_along (time_dim m)
          (filter (fun i => xleb t0 (vat c [i]) && xltb (vat c [i]) t1) (seq 0 (sz x (time_dim m)))) x)
      end
  end.
(** 759-918: [plot_subcolumn_mean_profile]: for each level the height, the
    line and the band.  [yname] is the pressure or height field.  Arrays of
    different length fail when drawn. *)
Definition mean_profile (d : disp) (name yname : string) (w : when) (mask : option arr) (g : gchoice) :
    res (list (xr * (xr * xr * xr))) :=
  do x <- at_times (d_model d) w (d_ds d);
  do yv <- getv x yname;
  do v <- getv x name;
  let a := masked (option_map squeeze mask) (squeeze (values x v)) in
  do (n, col) <- columns a;
  do (ny, y) <- heights (values x yv);
  if Nat.eqb n ny then Ok (map (fun k => (y k, level (contains name "Ze") (use_geom g name) (col k))) (seq 0 n))
  else Raise ValueError.

(** 920-1050: [plot_instrument_mean_profile]; only arrays over time and height can be drawn. *)
Definition first_of (x : xds) (l : list string) : res var :=
  match find (fun n => memb n (map fst (all_vars x)) || has_dim x n) l with
  | Some n => match axis_of x n with Some v => Ok v | None => Raise KeyError end
  | None => Raise UnboundLocalError
  end.
Definition instrument_profile (x : xds) (name : string) (r : option (xr * xr)) (mask : option arr) (g : gchoice) :
    res (list (xr * (xr * xr * xr))) :=
  do yv <- first_of x ["range"; "altitude"; "height"];
  do v <- getv x name;
  do a <- (match r with
           | None => Ok (values x v)
           | Some (t0, t1) =>
               match axis_of x "time" with
               | None => Raise KeyError
               | Some c =>
                   let keep := filter (fun i => xleb t0 (vat c [i]) && xltb (vat c [i]) t1) (seq 0 (sz x "time")) in
                   if memb "time" (vdims v) then Ok (values (keep_along "time" keep x) (isel "time" keep v)) else Raise ValueError
               end
           end);
  match ash (masked mask a), shape x yv with
  | [p; n], [ny] =>
      if Nat.eqb n ny
      then Ok (map (fun k => (vat yv [k], level (contains name "Ze") (use_geom g name)
                                          (map (fun i => aat (masked mask a) [i; k]) (seq 0 p)))) (seq 0 n))
      else Raise ValueError
  | _, _ => Raise ValueError
  end.
