(** What the radar outputs should be. *)
From Verif Require Import Mom_Base Mom_Spec Atm_Model Lidar_Spec Radar_Model.
Local Open Scope R_scope.

(** A linear reflectivity in dBZ; missing when there is none. *)
Definition dBZ (r : R) : xr := if Rlt_dec 0 r then XF (10 * (ln r / ln 10)) else XNaN.
(** The linear reflectivity of a field in dBZ: a missing value counts 0. *)
Definition linear (x : xr) : R := match x with XF d => Rpower 10 (d / 10) | _ => 0 end.
(** A stored linear reflectivity (missing or infinite values as such) in dBZ. *)
Definition to_dBZ (x : xr) : xr := match x with XF r => dBZ r | _ => XNaN end.

(** The linear stratiform plus convective reflectivity of a cell. *)
Definition total_linear (e : menv) (s : dset) (i t k : nat) : R :=
  linear (value s "sub_col_Ze_tot_strat" i t k)
  + (if p_conv e then linear (value s "sub_col_Ze_tot_conv" i t k) else 0).

(** A stored transmittance: missing values do not attenuate. *)
Definition transmits (x : xr) (T : R) : Prop := x = XF T \/ (x = XNaN /\ T = 1).

(** Two-way transmittance of a path: of an accumulated attenuation in dB, and
    of an optical depth. *)
Definition two_way_dB (a : R) : R := Rpower 10 (-2 * a / 10).
Definition two_way (od : R) : R := exp (-2 * od).

(** Accumulated extinction between the instrument and level [k]. *)
Definition path (sfc : bool) (n : nat) (Z A : nat -> R) (k : nat) : R :=
  if sfc then od_up Z A k else od_down n Z A k.
(** The level next to the instrument. *)
Definition at_instrument (sfc : bool) (n k : nat) : Prop := if sfc then k = 0%nat else S k = n.
(** [k'] is not nearer to the instrument than [k]. *)
Definition not_nearer (sfc : bool) (k k' : nat) : Prop := if sfc then (k <= k')%nat else (k' <= k)%nat.

(** Water content (kg m-3) of a mixing ratio at a pressure in Pa and a
    temperature in K, and the attenuation (dB km-1) by 1 g m-3 of liquid water
    of density [rho]. *)
Definition liquid_content (ins : inst) (q p t : R) : R := q * p / (r_d ins * t).
Definition liquid_attenuation (ins : inst) (rho : R) : R := 6 * PI / (wavelen ins * rho) * eps_im ins * (434 * 10 ^ 4).

(** The same call for another list of classes. *)
Definition radar_hyds (o : ropts) (hs : list string) : ropts :=
  {| r_sfc := r_sfc o; r_hyds := Some hs; r_sched := r_sched o; r_mie := r_mie o; r_rad := r_rad o;
     r_emp := r_emp o; r_width := r_width o; r_kw := r_kw o |}.

(** Names the radar calculations write. *)
Definition radar_fields : list string :=
  ["kappa_o2"; "kappa_wv"; "kappa_att"; "atm_ext"; "hyd_ext_conv"; "hyd_ext_strat"]%string.
Definition radar_reserved (x : string) : Prop :=
  In x radar_fields \/ exists y, x = ("sub_col_" ++ y)%string.
(** None of the variables a model object's tables point to is one of them. *)
Definition radar_tables_ok (e : menv) (c : bool) : Prop :=
  forall x, In x (table_names e c) -> ~ radar_reserved x.

(** Level [j] lies strictly between the instrument and level [k]. *)
Definition nearer (sfc : bool) (j k : nat) : Prop := if sfc then (j < k)%nat else (k < j)%nat.

(** Classes whose bulk tables are read only where the class is present:
    liquid of the CESM and P3 families, ice of P3. *)
Definition size_table (e : menv) (h : string) : Prop :=
  ((rad_family e = "CESM"%string \/ rad_family e = "P3"%string) /\ In h ["cl"; "pl"]%string)
  \/ (rad_family e = "P3"%string /\ h = "ci"%string).

(** The published oxygen line shape: width and absorption (dB km-1) at
    frequency [f] GHz, pressure [p] hPa (stored as [praw]), temperature [t] K;
    and its limit at frequencies far above the lines. *)
Definition o2_width (p praw t : R) : R :=
  (if Rlt_dec praw 25 then 118 / 100 else if Rle_dec 333 praw then 59 / 100
   else 59 / 100 * (1 + 31 / 10000 * (333 - p))) * (p / 1013) * Rpower (300 / t) (85 / 100).
Definition o2_absorption (f p praw t : R) : R :=
  let g := o2_width p praw t in
  11 / 1000 * f ^ 2 * (p / 1013) * (300 / t) ^ 2 * g * (1 / ((f - 60) ^ 2 + g ^ 2) + 1 / (f ^ 2 + g ^ 2)).
Definition o2_high (p praw t : R) : R :=
  22 / 1000 * (p / 1013) * (300 / t) ^ 2 * o2_width p praw t.

(** Water vapour: content (g m-3) of the mixing ratio [q] at [p] hPa and [t] K,
    published line width, and absorption (dB km-1) of a content [rho] at
    frequency [f] GHz. *)
Definition vapour_content (ins : inst) (q p t : R) : R := 1000 * q * (100 * p) / (r_d ins * t).
Definition wv_width (p t rho : R) : R :=
  285 / 100 * (p / 1013) * Rpower (300 / t) (626 / 1000) * (1 + 18 / 1000 * rho * t / p).
Definition wv_absorption (f p t rho : R) : R :=
  let g := wv_width p t rho in
  2 * f ^ 2 * rho * Rpower (300 / t) (3 / 2) * g
  * (300 / t * exp (-644 / t) / ((4944 / 10 - f ^ 2) ^ 2 + 4 * f ^ 2 * g ^ 2) + 12 / 10 ^ 7).
(** What is stored instead. *)
Definition wv_stored (f p t rho : R) : R :=
  let g := wv_width p t rho in
  4 * f ^ 2 * rho * Rpower (300 / t) (3 / 2) * g * (300 / t) * exp (-644 / t) * g ^ 2
  / ((4944 / 10 - f ^ 2) ^ 2 + 4 * f ^ 2) + 12 / 10 ^ 7.

(** Minimum detectable reflectivity at range [z], for one of [zmin] at the
    reference range [ref]. *)
Definition min_detectable (zmin ref z : R) : R := zmin + 20 * (ln z / ln 10) - 20 * (ln ref / ln 10).

(** Distinct class names, none of them that of a total. *)
Definition plain (hs : list string) : Prop := NoDup hs /\ ~ In "tot"%string hs /\ ~ In "att_tot"%string hs.

(** A class whose contribution does not depend on the classes before it. *)
Definition rfree (e : menv) (o : ropts) (h : string) : Prop := r_emp o = true \/ self_contained e h.

(** Heights as numbers. *)
Definition heights (e : menv) (s : dset) (Z : nat -> nat -> R) : Prop :=
  exists a, var2 s (z_name e) a /\ forall t k, point e t k -> z_met e (a t k) = XF (Z t k).

(** The state of the atmosphere as numbers: pressure [P] in hPa, temperature
    [T] in K, water vapour [Q], height [Z] in m.  The pressure is stored in
    hPa or in a smaller unit. *)
Definition atmosphere (e : menv) (s : dset) (P T Q Z : nat -> nat -> R) : Prop :=
  exists pa ta qa za,
    var2 s (p_name e) pa /\ var2 s (t_name e) ta /\ var2 s (qv_name e) qa /\ var2 s (z_name e) za /\
    forall t k, point e t k ->
      p_hpa e (pa t k) = XF (P t k) /\ p_pa e (pa t k) = XF (100 * P t k) /\
      (exists st, pa t k = XF st /\ P t k <= st) /\
      t_kel e (ta t k) = XF (T t k) /\ t_cel e (ta t k) = XF (T t k - 27315 / 100) /\
      qa t k = XF (Q t k) /\ z_met e (za t k) = XF (Z t k) /\
      0 < P t k /\ 0 < T t k /\ 0 <= Q t k.

(** What the total reflectivity call needs. *)
Definition total_inputs (e : menv) (s : dset) (M : nat -> nat -> R) : Prop :=
  (exists a, var3 s "sub_col_Ze_tot_strat" a) /\ (exists a, var3 s "hyd_ext_strat" a) /\
  (exists a, var2 s "atm_ext" a) /\ real2 e s "Ze_min" M /\
  (p_conv e = true -> (exists a, var3 s "sub_col_Ze_tot_conv" a) /\ (exists a, var3 s "hyd_ext_conv" a)).
