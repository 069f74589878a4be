(** What the classification masks and phase ratios should be. *)
From Verif Require Import Mom_Base Mom_Spec Lidar_Spec Class_Model.
From Coq Require Import ZArith.
Local Open Scope string_scope.
Local Open Scope list_scope.
Local Open Scope R_scope.

(** A class value as stored: 0 becomes NaN on request. *)
Definition shown (conv0 : bool) (v : nat) : xr :=
  if conv0 && (v =? 0)%nat then XNaN else XF (INR v).

(** [y] is the value at [x] of the line through (x0,y0), (x1,y1), ..., held
    constant outside. *)
Definition on_curve (xs ys : list R) (x y : R) : Prop :=
  (x < nth 0 xs 0 /\ y = nth 0 ys 0) \/
  (nth (length xs - 1) xs 0 <= x /\ y = nth (length xs - 1) ys 0) \/
  (exists j, (S j < length xs)%nat /\ nth j xs 0 <= x < nth (S j) xs 0 /\
     y = nth j ys 0 + (x - nth j xs 0) * (nth (S j) ys 0 - nth j ys 0) / (nth (S j) xs 0 - nth j xs 0)).
(** A usable threshold: as many backscatter values (positive) as LDR values
    (increasing), at least one. *)
Definition thr_ok (th : thr) : Prop :=
  th_ldr th <> [] /\ length (th_beta th) = length (th_ldr th) /\ Forall (fun b => 0 < b) (th_beta th) /\
  forall j, (S j < length (th_ldr th))%nat -> nth j (th_ldr th) 0 < nth (S j) (th_ldr th) 0.
(** Depolarisation ratio [l] and backscatter [b] reach the threshold. *)
Definition reaches (th : thr) (l b : xr) : Prop :=
  exists x r y, l = XF x /\ b = XF r /\ 0 < r /\
    on_curve (th_ldr th) (map log10 (th_beta th)) x y /\ y <= log10 r.
(** [v] is the value of the last class reached, 0 when there is none. *)
Definition last_class (ths : list thr) (l b : xr) (v : nat) : Prop :=
  (v = 0%nat /\ forall th, In th ths -> ~ reaches th l b) \/
  exists pre th post, ths = pre ++ th :: post /\ reaches th l b /\ v = th_ind th /\
    forall th', In th' post -> ~ reaches th' l b.

(** The masks of the lidar classification with their LDR, OD and backscatter fields. *)
Definition lidar_masks (e : menv) (name : string) : list (string * string * string * string) :=
  (if p_conv e then
     [("strat_phase_mask_" ++ name, "sub_col_LDR_strat", "sub_col_OD_tot_strat", "sub_col_beta_p_tot_strat");
      ("conv_phase_mask_" ++ name, "sub_col_LDR_conv", "sub_col_OD_tot_conv", "sub_col_beta_p_tot_conv")]%string
   else []) ++
  [("phase_mask_" ++ name ++ "_all_hyd", "sub_col_LDR_tot", "sub_col_OD_tot", "sub_col_beta_p_tot")]%string.

(** A number or NaN. *)
Definition real_or_nan (v : xr) : Prop := match v with XF _ | XNaN => True | _ => False end.
(** The fields a lidar mask needs exist; the mask holds what it should;
    its name. *)
Definition fields_of (s : dset) (remove : bool) (p : string * string * string * string) : Prop :=
  let '(_, ldr, od, beta) := p in
  (exists a, var3 s ldr a) /\ (exists a, var3 s beta a) /\ (remove = true -> exists a, var3 s od a).
Definition mask_is (e : menv) (ext : R) (ths : list thr) (conv0 remove : bool) (s s' : dset)
    (p : string * string * string * string) : Prop :=
  let '(mask, ldr, od, beta) := p in
  exists m, var3 s' mask m /\ forall i t k, cell e i t k ->
    real_or_nan (value s ldr i t k) -> real_or_nan (value s beta i t k) ->
    exists v, m i t k = shown conv0 v /\
      (remove = true /\ exceeds (value s od i t k) ext -> v = 0%nat) /\
      (~ (remove = true /\ exceeds (value s od i t k) ext) ->
       last_class ths (value s ldr i t k) (value s beta i t k) v).
Definition mname (p : string * string * string * string) : string := fst (fst (fst p)).
(** The thresholds used: the caller's, or the instrument's (at least one). *)
Definition ths_of (arg : option (list thr)) (deflt : list thr) (ths : list thr) : Prop :=
  match arg with Some l => l = ths | None => deflt = ths /\ ths <> [] end.

(** The masks of the radar classification: name, reflectivity field, cloud
    types whose cloud flags count. *)
Definition radar_masks (e : menv) (name : string) : list (string * string * list bool) :=
  (if p_conv e then
     [("strat_phase_mask_" ++ name ++ "_sounding", "sub_col_Ze_att_tot_strat", [false]);
      ("conv_phase_mask_" ++ name ++ "_sounding", "sub_col_Ze_att_tot_conv", [true])]%string
   else []) ++
  [("phase_mask_" ++ name ++ "_sounding_all_hyd", "sub_col_Ze_att_tot", cloud_types e)]%string.
(** [a] is at least [b] (neither is NaN). *)
Definition at_least (a b : xr) : Prop :=
  match a, b with
  | XF x, XF y => y <= x
  | XP, (XF _ | XP | XM) | XF _, XM | XM, XM => True
  | _, _ => False
  end.
(** Outside a height range (lo, hi). *)
Definition outside (rng : option (R * R)) (z : R) : Prop :=
  match rng with None => False | Some (lo, hi) => z < lo \/ hi < z end.

(** The class of a cell. *)
Definition radar_class (rng : option (R * R)) (ze zmin : xr) (z : R) (cloud : Prop) (v : nat) : Prop :=
  (outside rng z -> v = 0%nat) /\
  (~ outside rng z -> ~ at_least ze zmin -> ~ cloud -> v = 0%nat) /\
  (~ outside rng z -> ~ at_least ze zmin -> cloud -> v = 1%nat) /\
  (~ outside rng z -> at_least ze zmin -> cloud -> v = 2%nat) /\
  (~ outside rng z -> at_least ze zmin -> ~ cloud -> v = 3%nat).
(** Some cloud type of [cls] has cloud in the cell. *)
Definition cloudy (cls : list bool) (F : bool -> nat -> nat -> nat -> bool) (i t k : nat) : Prop :=
  exists c, In c cls /\ F c i t k = true.

(** The masks of the COSP emulation: name, suffix of the stored fields,
    cloud types included. *)
Definition cosp_masks (e : menv) : list (string * string * list bool) :=
  map (fun c => (cs c ++ "_COSP_phase_mask", cs c, [c])%string) (cloud_types e) ++
  [("COSP_phase_mask_all_hyd", "all_hyd", cloud_types e)]%string.
(** A field read with NaN as 0 and infinities as the largest number. *)
Definition numb (e : menv) (s : dset) (name : string) (f : nat -> nat -> nat -> R) : Prop :=
  exists a, var3 s name a /\ forall i t k, cell e i t k -> nan_to_num (a i t k) = XF (f i t k).
(** Level [k'] is nearer to the instrument than [k]. *)
Definition nearer (sfc : bool) (k' k : nat) : Prop := if sfc then (k' < k)%nat else (k < k')%nat.
(** A polynomial given by its coefficients, highest power first. *)
Definition poly (p : list R) (x : R) : R :=
  sumR (fun j => nth (length p - 1 - j) p 0 * x ^ j) (length p).
(** Molecular depolarisation. *)
Definition mdep : R := 284/10000.
(** The classes of a phase that are included. *)
Definition cosp_liq (o : copts) (hs : list string) : list string :=
  filter (fun h => memb h hs) (if c_precip o then ["cl"; "pl"] else ["cl"]).
Definition cosp_ice (o : copts) (hs : list string) : list string :=
  filter (fun h => memb h hs) (if c_precip o then ["ci"; "pi"] else ["ci"]).
(** Cross-polarised backscatter of a phase: the empirical polynomial of its
    attenuated backscatter, un-attenuated, less the molecular part. *)
Definition cross (eta : R) (coef : list R) (sig tau b od : R) : R :=
  poly coef ((sig + b) * tau * exp (-2 * eta * od) * 1000) / 1000 / exp (-2 * eta * od) / tau
  - sig * (mdep / (1 + mdep)).
(** Attenuated total and cross-polarised backscatter; scattering ratio. *)
Definition att_total (eta sig tau b cr od : R) : R := (b + cr + sig * (1 + mdep)) * exp (-2 * eta * od) * tau.
Definition att_cross (eta sig tau cr od : R) : R := (cr + sig * (mdep / (1 + mdep))) * exp (-2 * eta * od) * tau.
Definition scat_ratio (sig tau tot : R) : R := tot / (sig * (1 + mdep) * tau).
(** Sums over the cloud types [cls] for class backscatter [B] and optical
    depth [O] (molecular backscatter [S], transmittance [Ta]). *)
Definition cosp_sum (o : copts) (hs : list string) (F : bool -> string -> nat -> nat -> nat -> R)
    (cls : list bool) (i t k : nat) : R :=
  sum_over cls (fun c => sum_over (cosp_liq o hs ++ cosp_ice o hs) (fun h => F c h i t k)).
Definition cosp_cross (o : copts) (hs : list string) (S Ta : nat -> nat -> R)
    (B O : bool -> string -> nat -> nat -> nat -> R) (cls : list bool) (i t k : nat) : R :=
  sum_over cls (fun c =>
    cross (c_eta o) (c_liq o) (S t k) (Ta t k) (sum_over (cosp_liq o hs) (fun h => B c h i t k))
      (sum_over (cosp_liq o hs) (fun h => O c h i t k))
    + cross (c_eta o) (c_ice o) (S t k) (Ta t k) (sum_over (cosp_ice o hs) (fun h => B c h i t k))
      (sum_over (cosp_ice o hs) (fun h => O c h i t k))).
Definition cosp_tot o hs S Ta B O cls i t k : R :=
  att_total (c_eta o) (S t k) (Ta t k) (cosp_sum o hs B cls i t k) (cosp_cross o hs S Ta B O cls i t k)
    (cosp_sum o hs O cls i t k).
Definition cosp_crs o hs S Ta B O cls i t k : R :=
  att_cross (c_eta o) (S t k) (Ta t k) (cosp_cross o hs S Ta B O cls i t k) (cosp_sum o hs O cls i t k).
Definition cosp_sr o hs S Ta B O cls i t k : R := scat_ratio (S t k) (Ta t k) (cosp_tot o hs S Ta B O cls i t k).
(** Names written for one mask. *)
Definition cosp_names (o : copts) (p : string * string * list bool) : list string :=
  fst (fst p) :: (if c_atb o then ["COSP_ATBtot_" ++ snd (fst p); "COSP_ATBcross_" ++ snd (fst p); "COSP_SR_" ++ snd (fst p)]%string else []).
(** The class of level [k] of a profile: no cloud, liquid, ice, undefined. *)
Definition cosp_class (o : copts) (n : nat) (SR tot cr T : nat -> R) (k v : nat) : Prop :=
  let behind := exists k', (k' < n)%nat /\ nearer (c_sfc o) k' k /\ c_undef o < SR k' in
  (SR k <= c_cloud o -> v = 0%nat) /\
  (c_cloud o < SR k ->
     (behind -> v = 3%nat) /\
     (~ behind -> T k < 23315/100 -> v = 2%nat) /\
     (~ behind -> 27315/100 < T k -> v = 1%nat) /\
     (~ behind -> 23315/100 <= T k <= 27315/100 ->
        (poly (c_curve o) (tot k * 1000) / 1000 < cr k -> v = 2%nat) /\
        (cr k <= poly (c_curve o) (tot k * 1000) / 1000 -> v = 1%nat))).

(** The stored fields (on request) and the mask. *)
Definition fields_ok (e : menv) (o : copts) (mask suffix : string) (s' : dset)
    (SR TOT CR : nat -> nat -> nat -> R) (T : nat -> nat -> R) : Prop :=
  (c_atb o = true -> real3 e s' ("COSP_ATBtot_" ++ suffix)%string TOT /\
     real3 e s' ("COSP_ATBcross_" ++ suffix)%string CR /\ real3 e s' ("COSP_SR_" ++ suffix)%string SR) /\
  exists m, var3 s' mask m /\ forall i t k, cell e i t k ->
    exists v, m i t k = shown (c_conv0 o) v /\
      cosp_class o (nht e) (SR i t) (TOT i t) (CR i t) (T t) k v.

(** The classes of the phase ratios. *)
Definition liquid_of (hs : list string) : list string := filter (fun h => memb h hs) ["cl"; "pl"].
Definition ice_of (hs : list string) : list string := filter (fun h => memb h hs) ["ci"; "pi"].
(** A mask cell: a class value or NaN. *)
Definition mask_cell (v : xr) : Prop := v = XNaN \/ exists z, v = XF (IZR z).
(** [v] is one of the class values [l]. *)
Definition is_class (v : xr) (l : list Z) : Prop := exists z, In z l /\ v = XF (IZR z).
(** [n] of the indices below [m] satisfy [P]. *)
Inductive count (P : nat -> Prop) : nat -> nat -> Prop :=
| count_0 : count P 0 0
| count_yes m n : count P m n -> P m -> count P (S m) (S n)
| count_no m n : count P m n -> ~ P m -> count P (S m) n.
(** [v] is the share of [a] in [a + b], NaN when the sum vanishes. *)
Definition share (v : xr) (a b : R) : Prop :=
  (a + b = 0 -> v = XNaN) /\ (a + b <> 0 -> v = XF (a / (a + b))).

(** The masses compared: summed over cloud types and the classes [l], where
    the mask is set. *)
Definition set_mass (e : menv) (m : nat -> nat -> nat -> xr) (Q : bool -> string -> nat -> nat -> nat -> R)
    (l : list string) (i t k : nat) (r : R) : Prop :=
  (exceeds (m i t k) 0 -> r = sum_over (cloud_types e) (fun c => sum_over l (fun h => Q c h i t k))) /\
  (~ exceeds (m i t k) 0 -> r = 0).

(** The masses of the classes [l] of a cell, over the cloud types; the number
    in a value; the mass of a cell that counts: all of it where the mask is
    set and no value is missing, nothing otherwise. *)
Definition class_masses (e : menv) (a : bool -> string -> nat -> nat -> nat -> xr) (l : list string) (i t k : nat) : list xr :=
  flat_map (fun c => map (fun h => a c h i t k) l) (cloud_types e).
Definition cell_number (v : xr) : R := match v with XF r => r | _ => 0 end.
Definition counted (e : menv) (m : nat -> nat -> nat -> xr) (a : bool -> string -> nat -> nat -> nat -> xr)
    (l : list string) (i t k : nat) (r : R) : Prop :=
  (exceeds (m i t k) 0 /\ ~ In XNaN (class_masses e a l i t k) -> r = sum_over (class_masses e a l i t k) cell_number) /\
  (~ (exceeds (m i t k) 0 /\ ~ In XNaN (class_masses e a l i t k)) -> r = 0).
