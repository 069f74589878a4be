(** The published formulas for the optical properties and the reflectivity of
    one hydrometeor class, in real numbers. *)
From Verif Require Import Mom_Base Mom_Spec Lidar_Model Lidar_Spec Class_Spec.
Local Open Scope R_scope.

(** Pressure in Pa, temperature in degrees Celsius, as numbers. *)
Definition pressures (e : menv) (s : dset) (P : nat -> nat -> R) : Prop :=
  exists a, var2 s (p_name e) a /\ forall t k, point e t k -> p_pa e (a t k) = XF (P t k).
Definition temperatures (e : menv) (s : dset) (T : nat -> nat -> R) : Prop :=
  exists a, var2 s (t_name e) a /\ forall t k, point e t k -> t_cel e (a t k) = XF (T t k).

(** *** Empirical formulas *)

(** Water content (kg m-3) of mixing ratio [q] in air of pressure [p] (Pa)
    and temperature [t] (C). *)
Definition water_content (rd q p t : R) : R := q * p / (rd * (t + 27315 / 100)).
(** Extinction (m-1) of liquid of density [rho], effective radius [re] (micron). *)
Definition liquid_extinction (rho w re : R) : R := 3 * w / (2 * rho * (re / 10 ^ 6)).
(** Extinction of ice, Heymsfield et al. (2014). *)
Definition ice_extinction (w t : R) : R :=
  Rpower (w / (532 / 100000 * Rpower (t + 90) (255 / 100))) (1 / (131 / 100 * exp (47 / 10000 * t))).
(** Reflectivity (mm6 m-3) of cloud and rain water of content [w] (g m-3). *)
Definition cloud_Z (w : R) : R := 31 / 1000 * Rpower w (156 / 100).
Definition rain_Z (w : R) : R := Rpower (w * 1000 / (34 / 10)) (175 / 100).
(** Reflectivity of ice in dBZ, Hogan et al. (2006), in the bands of 3, 35
    and 94 GHz (35 GHz elsewhere); [f] in GHz, [w] in g m-3, [t] in C. *)
Definition in_band (lo hi f : R) : bool := if Rle_dec lo f then if Rlt_dec f hi then true else false else false.
Definition ice_dBZ (f w t : R) : R :=
  let lw := ln w / ln 10 in
  if in_band 2 4 f then (lw + 197 / 10000 * t + 17 / 10) / (60 / 1000)
  else if in_band 75 110 f then (lw + 706 / 100000 * t + 992 / 1000) / (580 / 1000000 * t + 923 / 10000)
  else (lw + 186 / 10000 * t + 163 / 100) / (242 / 1000000 * t + 699 / 10000).

(** *** Bulk (radiation scheme) formulas *)

(** Mass of the class in a layer between levels [k] and [k+1] divided by the
    layer's depth (kg m-3), by hydrostatic balance. *)
Definition layer_water (g q : R) (P Z : nat -> R) (k : nat) : R :=
  q * Rabs (P (S k) - P k) / g / (Z (S k) - Z k).
(** Projected area (m2 m-3) of particles of density [rho] and effective radius
    [re] (micron) with water content [w]. *)
Definition projected_area (rho re w : R) : R := 3 * w / (4 * rho * (re / 10 ^ 6)).

(** Density and effective radius used for a class: liquid has its own; ice
    has the density of solid ice and the radius scaled by the fluffiness
    factor (when the model has one) of its density [rh]. *)
Definition fluffiness (f rh rho_i : R) : R := f * rh / rho_i + (1 - f) * Rpower (rh / rho_i) (1 / 3).
Definition class_radius (e : menv) (ins : inst) (c : bool) (s : dset) (h : string)
    (rho : R) (Re : nat -> nat -> R) : Prop :=
  exists rn re0, assoc (if c then re_conv e else re_strat e) h = Some rn /\ real2 e s rn re0 /\
  ((In h ["cl"; "pl"]%string /\ assoc (rho_hyd e) h = Some (RConst rho) /\ Re = re0) \/
   (In h ice_classes /\ rad_family e <> "P3"%string /\ rho = rho_ice ins /\
    exists rh : nat -> nat -> R,
      ((exists r, assoc (rho_hyd e) h = Some (RConst r) /\ forall t k, rh t k = r) \/
       (exists v, assoc (rho_hyd e) h = Some RVar /\ assoc (var_density e) h = Some v /\ real2 e s v rh)) /\
      match fluffy e with
      | None => Re = re0
      | Some d => exists f, assoc d h = Some f /\
          forall t k, point e t k -> 0 < rh t k /\ Re t k = re0 t k * fluffiness f (rh t k) (rho_ice ins)
      end)).

(** The table of a class; [p3liq] is the liquid table of the P3 family. *)
Definition bulk_table_name (p3liq fam : string) (mie : bool) (h : string) : string :=
  if memb h ice_classes
  then if String.eqb fam "CESM" then (if mie then "mie_ice_CESM_PSD" else "CESM_ice")%string
       else (if mie then "mie_ice_E3_PSD" else "E3_ice")%string
  else if String.eqb fam "CESM" then "CESM_liq"%string
  else if String.eqb fam "ModelE" then "E3_liq"%string else p3liq.

(** Extinction and backscatter efficiencies of a class: read from the table
    at the size-distribution parameters (liquid of CESM and P3), or by linear
    interpolation at the effective radius. *)
Definition class_efficiency (e : menv) (ins : inst) (p3liq : string) (mie : bool) (s : dset) (h : string)
    (Re Qe Qb : nat -> nat -> R) : Prop :=
  exists tb, assoc (bulk_table ins) (bulk_table_name p3liq (rad_family e) mie h) = Some tb /\
  if memb h ["cl"; "pl"]%string && negb (String.eqb (rad_family e) "ModelE") then
    exists dl dm ln mn la mu,
      lam_field e = Some dl /\ assoc dl h = Some (Some ln) /\ real2 e s ln la /\
      mu_field e = Some dm /\ assoc dm h = Some (Some mn) /\ real2 e s mn mu /\
      forall t k, point e t k -> b_ext2 tb (XF (mu t k)) (XF (la t k)) = XF (Qe t k) /\
                                 b_back2 tb (XF (mu t k)) (XF (la t k)) = XF (Qb t k)
  else
    exists xs qe qb, b_re tb = map XF xs /\ b_ext tb = map XF qe /\ b_back tb = map XF qb /\
      xs <> [] /\ length qe = length xs /\ length qb = length xs /\
      (forall j, (S j < length xs)%nat -> nth j xs 0 < nth (S j) xs 0) /\
      forall t k, point e t k -> on_curve xs qe (Re t k) (Qe t k) /\ on_curve xs qb (Re t k) (Qb t k).

(** Reflectivity (mm6 m-3) of a backscatter cross-section [b] (m2 m-3) at
    wavelength [lam] (micron), for a dielectric factor [kw]. *)
Definition backscatter_Z (lam kw b : R) : R := b * lam ^ 4 / (kw * PI ^ 5) / 10 ^ 6.

(** What the bulk method uses of one class: mass per cell, where the class is
    present, density, effective radius, and the extinction and backscatter
    efficiencies. *)
Record bulk_class_data := {
  bd_mass : nat -> nat -> nat -> R; bd_present : nat -> nat -> nat -> bool;
  bd_density : R; bd_radius : nat -> nat -> R; bd_ext : nat -> nat -> R; bd_back : nat -> nat -> R }.
Definition bulk_data (e : menv) (ins : inst) (c mie : bool) (s : dset) (h : string) (d : bulk_class_data) : Prop :=
  0 < bd_density d /\ (forall t k, point e t k -> 0 < bd_radius d t k) /\
  real3 e s (qn c h) (bd_mass d) /\ varb s (fn c h) (bd_present d) /\
  class_radius e ins c s h (bd_density d) (bd_radius d) /\
  class_efficiency e ins "p3_liq" mie s h (bd_radius d) (bd_ext d) (bd_back d).
(** Extinction of the class at one level, and the sum over a list of classes. *)
Definition bulk_extinction (g : R) (d : bulk_class_data) (P Z : nat -> R) (i t k : nat) : R :=
  if bd_present d i t k
  then bd_ext d t k * projected_area (bd_density d) (bd_radius d t k) (layer_water g (bd_mass d i t k) P Z k)
  else 0.
Definition total_of (f : string -> R) (hs : list string) : R := fold_right Rplus 0 (map f hs).
