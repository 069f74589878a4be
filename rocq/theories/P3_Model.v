(** E3SMv3 with P3 ice: emc2/core/model.py 953-975 and 997-1073.
    Only the data that end up in the dataset are modelled; the interpolants
    kept in [interpobj] (976-994) are those of [rgi] for other tables. *)
From Verif Require Export Load_Model Psd_Model.
Local Open Scope string_scope.
Local Open Scope list_scope.

(** The parts of the P3 lookup table used here ([scat_table['p3_ice']]):
    its axes Fr, rho_r, q_norm and the slopes "lambda". *)
Record p3_table := {
  ax_fr : list xr; ax_rr : list xr; ax_qn : list xr;
  t_lam : nat -> nat -> nat -> xr
}.

(** scipy.interpolate.RegularGridInterpolator((x, y, z), values,
    bounds_error=False), method "linear".  The constructor wants strictly
    increasing axes (decreasing ones, which newer releases also take, are not
    modelled) and, here, at least two points on each. *)
Fixpoint ascending (l : list xr) : bool :=
  match l with
  | a :: (b :: _) as l' => xltb a b && ascending l'
  | _ => true
  end.
Definition axis_valid (l : list xr) : bool := (2 <=? length l)%nat && ascending l.
(** Position of [x]: [np.searchsorted(grid, x) - 1], limited to the intervals
    of the axis, and the distance from its left end as a share of the interval. *)
Definition below (l : list xr) (x : xr) : nat := length (filter (fun a => xltb a x) l).
Definition slot (l : list xr) (x : xr) : nat := Nat.min (below l x - 1) (length l - 2).
Definition share (l : list xr) (x : xr) : xr :=
  let i := slot l x in
  xdiv (xsub x (nth i l XNaN)) (xsub (nth (S i) l XNaN) (nth i l XNaN)).
Definition outside (l : list xr) (x : xr) : bool :=
  xltb x (nth 0 l XNaN) || xltb (nth (length l - 1) l XNaN) x.
(** The weight of the lower ([false]) and upper end of an interval. *)
Definition wt (up : bool) (s : xr) : xr := if up then s else xsub (XF 1) s.
Definition sh1 (up : bool) (i : nat) : nat := if up then S i else i.
(** NaN for a NaN coordinate or a point off the grid, otherwise the sum over
    the eight corners. *)
Definition rgi (ax ay az : list xr) (v : nat -> nat -> nat -> xr) (x y z : xr) : xr :=
  if isnan x || isnan y || isnan z || outside ax x || outside ay y || outside az z then XNaN
  else
    let i := slot ax x in let j := slot ay y in let k := slot az z in
    let corner a b c := xmul (v (sh1 a i) (sh1 b j) (sh1 c k))
                             (xmul (xmul (wt a (share ax x)) (wt b (share ay y))) (wt c (share az z))) in
    fold_left (fun acc f => xadd acc f)
      [corner false false false; corner false false true; corner false true false; corner false true true;
       corner true false false; corner true false true; corner true true false; corner true true true] (XF 0).

(** [np.maximum], [np.minimum]: NaN if either is. *)
Definition xmax (a b : xr) : xr := if isnan a || isnan b then XNaN else if xltb a b then b else a.
Definition xmin (a b : xr) : xr := if isnan a || isnan b then XNaN else if xltb b a then b else a.

Section P3.
Variable Gam : R -> R.        (* scipy.special.gamma *)

(** model.py 997-1021: [calc_mu_n0_from_lambda]. *)
Definition mu_of (lam : xr) : xr :=
  let m := xsub (xmul (XF (76 / 1000)) (xpow (xdiv lam (XF 100)) (XF (8 / 10)))) (XF 2) in
  xmin (xmax m (XF 0)) (XF 6).
Definition n0_of (lam : xr) : xr :=
  let m := mu_of lam in xdiv (xpow lam (xadd m (XF 1))) (xgam Gam (xadd m (XF 1))).

(** [set_array_to_valid_range] of the values of a field. *)
Definition clamp_var (grid : list xr) (v : var) : res var :=
  match grid with [] => Raise ValueError | _ => Ok (vmap (clamp_to grid) v) end.
(** model.py 1023-1046: [limit_input_data_to_p3_lut_range]. *)
Definition limit_to_lut (tb : p3_table) (x : xds) : res (var * var * var) :=
  do fr <- getv x "Fr"; do f' <- clamp_var (ax_fr tb) fr;
  do rr <- getv x "rho_r"; do r' <- clamp_var (ax_rr tb) rr;
  do qn <- getv x "qi_norm"; do q' <- clamp_var (ax_qn tb) qn;
  Ok (f', r', q').

(** model.py 1048-1073: [interp_p3_ice_psd_params_to_grid].  The values are
    combined by position and get the dimensions of "Fr"; unequal shapes are
    not modelled (ValueError). *)
Definition interp_p3 (tb : p3_table) (limit : bool) (x : xds) : res xds :=
  do (f, r, q) <- (if limit then limit_to_lut tb x
                   else do fr <- getv x "Fr"; do rr <- getv x "rho_r"; do qn <- getv x "qi_norm"; Ok (fr, rr, qn));
  if negb (axis_valid (ax_fr tb) && axis_valid (ax_rr tb) && axis_valid (ax_qn tb)) then Raise ValueError
  else
    do _ <- vpos x (fun a _ => a) f r;
    do _ <- vpos x (fun a _ => a) f q;
    do fr <- getv x "Fr";
    let lam := {| vdims := vdims fr;
                  vat := fun ix => rgi (ax_fr tb) (ax_rr tb) (ax_qn tb) (t_lam tb) (vat f ix) (vat r ix) (vat q ix) |} in
    Ok (setv (setv (setv x "lambda_ice" lam) "mu_ice" (vmap mu_of lam)) "N0_norm_ice" (vmap n0_of lam)).

(** model.py 953-975: the E3SMv3 constructor, given the table of its
    [instrument] argument (if any).  [ds[name].values = a] keeps the
    dimensions. *)
Definition e3smv3_load (o : e3sm_opts) (tb : option p3_table) (m : mobj) : res mobj :=
  do m1 <- e3sm_load o m;
  if String.eqb (o_scheme o) "P3" then
    match tb with
    | None => Ok m1
    | Some t =>
        do (f, r, q) <- limit_to_lut t (mds m1);
        let x1 := setv (setv (setv (mds m1) "Fr" f) "rho_r" r) "qi_norm" q in
        do x2 <- interp_p3 t true x1;
        Ok (with_ds m1 x2)
    end
  else Ok m1.
End P3.
