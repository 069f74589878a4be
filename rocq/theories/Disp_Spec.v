(** Vocabulary for displays. *)
From Verif Require Export Disp_Model Xds_Spec.
Local Open Scope string_scope.
Local Open Scope list_scope.

(** The numbers among the values. *)
Definition numbers (l : list xr) : list R := flat_map (fun a => match a with XF r => [r] | _ => [] end) l.
Definition total (l : list R) : R := fold_right Rplus 0%R l.
Definition average (l : list R) : R := (total l / INR (length l))%R.
(** Standard deviation: root of the mean squared distance from the mean. *)
Definition spread (l : list R) : R := sqrt (average (map (fun r => (r - average l) * (r - average l))%R l)).
Definition positive (l : list R) : list R := filter (fun r => if Rlt_dec 0 r then true else false) l.
Definition no_inf (l : list xr) : Prop := ~ In XP l /\ ~ In XM l.
Definition product (l : list R) : R := fold_right Rmult 1%R l.

(** Line and band of a level with the numbers [us]: reflectivities are
    averaged in linear units. *)
Definition mean_of (geom : bool) (us : list R) : R := if geom then exp (average (map ln us)) else average us.
Definition sd_of (geom : bool) (us : list R) : R := if geom then exp (spread (map ln us)) else spread us.
Definition used (ze geom : bool) (fs : list R) : list R :=
  let ls := if ze then map (fun z => Rpower 10 (z / 10)) fs else fs in if geom then positive ls else ls.
Definition dB (r : R) : R := (10 * log10 r)%R.
Definition drawn (ze geom : bool) (fs : list R) (l : xr * xr * xr) : Prop :=
  let us := used ze geom fs in
  let m := mean_of geom us in let s := sd_of geom us in
  match us with
  | [] => fst (fst l) = XNaN
  | _ => if ze then fst (fst l) = XF (dB m) /\ snd l = XF (dB (m + s)) /\
                    snd (fst l) = XF (if Rlt_dec s m then dB (m - s) else dB (/ 2 ^ 52))
         else l = (XF m, XF (m - s), XF (m + s))%R
  end.

(** The times shown: all, the nearest one, or those in [t0, t1). *)
Definition clock (x : xds) (td : string) (c : nat -> R) : Prop :=
  exists v, assoc (coords x) td = Some v /\ vdims v = [td] /\ (forall i, i < sz x td -> vat v [i] = XF (c i)) /\
    forall i j, i < j < sz x td -> (c i < c j)%R.
Definition shown (w : when) (n : nat) (c : nat -> R) (steps : list nat) : Prop :=
  match w with
  | WAll => steps = seq 0 n
  | WOne (XF t) => exists i, steps = [i] /\ i < n /\ forall j, j < n -> (Rabs (t - c i) <= Rabs (t - c j))%R
  | WRange (XF t0) (XF t1) => steps = filter (fun i => if Rle_dec t0 (c i) then if Rlt_dec (c i) t1 then true else false else false) (seq 0 n)
  | _ => False
  end.
(** A field over subcolumns, times and levels, with the heights (or
    pressures) of the levels at each time. *)
Record profile_of (d : disp) (name yname : string) (c : nat -> R) (subs levels : nat)
    (f : nat -> nat -> nat -> xr) (y : nat -> nat -> R) : Prop := {
  po_clock : clock (d_ds d) (time_dim (d_model d)) c;
  po_field : exists v, assoc (all_vars (d_ds d)) name = Some v /\
    vdims v = ["subcolumn"; time_dim (d_model d); height_dim (d_model d)] /\ forall s t k, vat v [s; t; k] = f s t k;
  po_y : exists v, assoc (all_vars (d_ds d)) yname = Some v /\ vdims v = [time_dim (d_model d); height_dim (d_model d)] /\
    forall t k, t < sz (d_ds d) (time_dim (d_model d)) -> k < levels -> vat v [t; k] = XF (y t k);
  po_dims : NoDup ["subcolumn"; time_dim (d_model d); height_dim (d_model d)];
  po_sz : sz (d_ds d) "subcolumn" = subs /\ sz (d_ds d) (height_dim (d_model d)) = levels
}.
(** The same for a field without subcolumns. *)
Record grid_profile_of (d : disp) (name yname : string) (c : nat -> R) (levels : nat)
    (f : nat -> nat -> xr) (y : nat -> nat -> R) : Prop := {
  go_clock : clock (d_ds d) (time_dim (d_model d)) c;
  go_field : exists v, assoc (all_vars (d_ds d)) name = Some v /\
    vdims v = [time_dim (d_model d); height_dim (d_model d)] /\ forall t k, vat v [t; k] = f t k;
  go_y : exists v, assoc (all_vars (d_ds d)) yname = Some v /\ vdims v = [time_dim (d_model d); height_dim (d_model d)] /\
    forall t k, t < sz (d_ds d) (time_dim (d_model d)) -> k < levels -> vat v [t; k] = XF (y t k);
  go_dims : time_dim (d_model d) <> height_dim (d_model d);
  go_sz : sz (d_ds d) (height_dim (d_model d)) = levels
}.
(** A mask over the values shown: positive (or NaN) entries hide. *)
Definition mask3 (a b c : nat) (K : option (nat -> nat -> nat -> xr)) : option arr :=
  option_map (fun K => {| ash := [a; b; c]; aat := fun ix => K (nth 0 ix 0) (nth 1 ix 0) (nth 2 ix 0) |}) K.
Definition visible (K : option (nat -> nat -> nat -> xr)) (f : nat -> nat -> nat -> xr) (steps : list nat) (s j k : nat) : xr :=
  let a := f s (nth j steps 0) k in
  match K with None => a | Some K => match K s j k with XF r => if Rle_dec r 0 then a else XNaN | XM => a | _ => XNaN end end.
(** Arithmetic or geometric. *)
Definition geometric (g : gchoice) (name : string) (geom : bool) : Prop :=
  match g with
  | GBool b => geom = b
  | GStr s => geom = true <-> s = "auto" /\ exists k, In k ["alpha"; "beta"; "OD"; "Ze"; "backscatter"; "extinction"; "reflectivity"] /\ occurs_in k name
  end.

(** Reflectivities are fields with Ze in their name. *)
Definition is_dBZ (name : string) (ze : bool) : Prop := ze = true <-> occurs_in "Ze" name.
(** The times asked for are numbers (no NaT). *)
Definition real_times (w : when) : Prop :=
  match w with WAll => True | WOne t => exists r, t = XF r | WRange a b => exists r s, a = XF r /\ b = XF s end.
(** What is drawn: for each level its height averaged over the times shown,
    and line and band of the values [vis k] seen there. *)
Definition drawn_profile (r : list (xr * (xr * xr * xr))) (levels : nat) (steps : list nat) (ze geom : bool)
    (y : nat -> nat -> R) (vis : nat -> list xr) : Prop :=
  length r = levels /\ forall k, k < levels ->
    exists lev, nth_error r k = Some (XF (average (map (fun t => y t k) steps)), lev) /\ drawn ze geom (numbers (vis k)) lev.
(** All values seen at a level: every subcolumn, every time shown. *)
Definition seen_at (K : option (nat -> nat -> nat -> xr)) (f : nat -> nat -> nat -> xr) (subs : nat) (steps : list nat) (k : nat) : list xr :=
  flat_map (fun s => map (fun j => visible K f steps s j k) (seq 0 (length steps))) (seq 0 subs).

(** The position a latitude or longitude choice means: first by default,
    Python index, or the one nearest to a value. *)
Definition chosen (n : nat) (c : nat -> R) (ch : choice) (i : nat) : Prop :=
  i < n /\ match ch with
  | CNone => i = 0
  | CInt z => Z.of_nat i = z \/ Z.of_nat i = (Z.of_nat n + z)%Z
  | CFloat (XF t) => forall j, j < n -> (Rabs (t - c i) <= Rabs (t - c j))%R
  | _ => False
  end.
(** A choice that can be met: an index within the axis, or a number. *)
Definition can_choose (n : nat) (ch : choice) : Prop :=
  0 < n /\ match ch with
  | CNone => True
  | CInt z => (- Z.of_nat n <= z < Z.of_nat n)%Z
  | CFloat v => exists t, v = XF t
  | COther => False
  end.

(** An instrument field over time and height; the heights are the first of
    range, altitude and height present. *)
Definition present (x : xds) (n : string) : Prop := In n (map fst (all_vars x)) \/ In n (all_dims x).
Record instrument_of (x : xds) (name hdim : string) (c : nat -> R) (f : nat -> nat -> xr) (y : nat -> R) : Prop := {
  io_clock : clock x "time" c;
  io_y : exists pre yname post v, ["range"; "altitude"; "height"] = pre ++ yname :: post /\ (forall p, In p pre -> ~ present x p) /\
    assoc (all_vars x) yname = Some v /\ vdims v = [hdim] /\ forall k, k < sz x hdim -> vat v [k] = XF (y k);
  io_field : exists v, assoc (all_vars x) name = Some v /\ vdims v = ["time"; hdim] /\ forall t k, vat v [t; k] = f t k;
  io_dims : hdim <> "time"
}.
Definition mask2 (b c : nat) (K : option (nat -> nat -> nat -> xr)) : option arr :=
  option_map (fun K => {| ash := [b; c]; aat := fun ix => K 0 (nth 0 ix 0) (nth 1 ix 0) |}) K.
Definition window (r : option (xr * xr)) : when := match r with None => WAll | Some (a, b) => WRange a b end.
