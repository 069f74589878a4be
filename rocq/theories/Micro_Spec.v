(** Integrals over a table of particle sizes, as the microphysics methods
    should compute them. *)
From Coq Require Import Reals.
From Verif Require Import Mom_Base Mom_Spec Lidar_Model Lidar_Spec Psd_Model Psd_Spec Radar_Model.
From Verif Require Radar_Spec.
Local Open Scope R_scope.

(** The trapezoidal rule for the values [F] of a function at the nodes [D]. *)
Fixpoint trapezoid (D F : list R) : R :=
  match D, F with
  | d0 :: ((d1 :: _) as D'), f0 :: ((f1 :: _) as F') =>
      (d1 - d0) * (f0 + f1) / 2 + trapezoid D' F'
  | _, _ => 0
  end.
(** The quantity of a population of particles with [n d] particles of size
    [d] per unit size, each contributing the tabulated amount. *)
Fixpoint times (X : list R) (n : R -> R) (D : list R) : list R :=
  match X, D with x :: X', d :: D' => x * n d :: times X' n D' | _, _ => [] end.
Definition population (D X : list R) (n : R -> R) : R := trapezoid D (times X n D).

(** The table of a class holds numbers: positive increasing diameters, and
    cross-sections for backscatter and extinction. *)
Fixpoint increasing_from (x : R) (D : list R) : Prop :=
  match D with [] => True | d :: D' => x < d /\ increasing_from d D' end.
Definition particle_table (t : list xr * list xr * list xr) (D B A : list R) : Prop :=
  t = (map XF D, map XF B, map XF A) /\ length B = length D /\ length A = length D /\ increasing_from 0 D.

(** The model's tables do not point to the outputs of the calculations nor to
    the scratch variables of the size distributions. *)
Definition micro_tables_ok (e : menv) : Prop :=
  tables_ok e false /\
  forall x, In x (table_names e false) -> ~ In x ["mu"; "lambda"; "N_0"]%string.

(** A class described by a gamma distribution of its own mass and number:
    every class but the ice classes of the P3 scheme. *)
Definition gamma_class (e : menv) (h : string) : Prop :=
  In h ["cl"; "pl"]%string \/ lower (mcphys e) <> "p3"%string.

(** The call without the totals of an earlier one. *)
Definition no_lidar_totals (s : dset) : Prop := has s (out "beta_p" "tot" false) = false.

(** The same call with another schedule. *)
Definition with_sched (o : lopts) (sch : Sched_Model.sched) : lopts :=
  {| o_sfc := o_sfc o; o_hyds := o_hyds o; o_sched := sch; o_eta := o_eta o;
     o_mie := o_mie o; o_rad := o_rad o; o_emp := o_emp o; o_kw := o_kw o |}.
Definition rwith_sched (o : ropts) (sch : Sched_Model.sched) : ropts :=
  {| r_sfc := r_sfc o; r_hyds := r_hyds o; r_sched := sch; r_mie := r_mie o; r_rad := r_rad o;
     r_emp := r_emp o; r_width := r_width o; r_kw := r_kw o |}.

(** Earlier totals: those of a previous call, or none. *)
Definition lidar_fields : list string := ["alpha_p"; "beta_p"; "OD"]%string.
Definition totals_stored (s : dset) : Prop :=
  has s (out "beta_p" "tot" false) = true ->
  forall f, In f lidar_fields -> exists a, var3 s (out f "tot" false) a.
Definition total_before (s : dset) (f : string) (i t k : nat) : xr :=
  if has s (out "beta_p" "tot" false) then value s (out f "tot" false) i t k else XF 0.

(** The shape parameter of a class: psd.py 120-132 (the number concentration
    enters the relation of Martin et al. in units of 10^6 cm-3, see C62). *)
Definition class_shape (e : menv) (kw : psd_kw) (h : string) (n : R) : R :=
  if String.eqb h "cl" then
    if dispersion e kw then Rmin (k_hi kw) (Rmax (k_lo kw) (martin (n / 10 ^ 6))) else 1 / (9 / 100)
  else 0.

(** The single-particle table of a class: diameters, backscatter and
    extinction cross-sections. *)
Definition ice_table_name (fam : string) : string :=
  if String.eqb fam "CESM" then "CESM_ice"
  else if String.eqb fam "ModelE" then "E3_ice" else "p3_ice".
Definition class_table (e : menv) (ins : inst) (mie : bool) (h : string) (t : list xr * list xr * list xr) : Prop :=
  exists st,
    (if memb h ice_classes then
       if mie then assoc (mie_table ins) (if String.eqb h "ci" then "ci" else "pi")%string = Some st
       else assoc (scat_table ins) (ice_table_name (rad_family e)) = Some st
     else assoc (mie_table ins) h = Some st) /\
    t = ((if memb h ice_classes && negb mie && String.eqb (rad_family e) "ModelE" then s_diam_eqv st else s_diam st),
         s_beta st, s_alpha st).

(** *** Radar *)
(** The model's tables do not point to the outputs of the radar calculations
    nor to the scratch variables of the size distributions. *)
Definition rmicro_tables_ok (e : menv) : Prop :=
  Radar_Spec.radar_tables_ok e false /\
  forall x, In x (table_names e false) -> ~ In x ["mu"; "lambda"; "N_0"]%string.
(** The classes that follow the last "cl" of the list, with it: all of them
    when "cl" comes first or is absent. *)
Fixpoint from_cl (hs : list string) : list string :=
  match hs with
  | [] => []
  | h :: hs' => if existsb (String.eqb "cl") hs' then from_cl hs' else h :: hs'
  end.
(** The reflectivity total a call starts from. *)
Definition Ze_before (s : dset) (i t k : nat) : xr :=
  if has s (out "Ze" "tot" false) then value s (out "Ze" "tot" false) i t k else XF 0.

(** What a cell holds of a class: condensate, in a number of particles of a
    positive density; or no condensate. *)
Definition holds_particles (e : menv) (s : dset) (h : string) (i t k : nat) (q n r : R) : Prop :=
  value s (qn false h) i t k = XF q /\ value s (nn false h) i t k = XF n /\ density_at e s h t k r /\
  0 < q /\ 0 < n /\ 0 < r /\ exists fl, varb s (fn false h) fl /\ fl i t k = true.
Definition holds_none (s : dset) (h : string) (i t k : nat) : Prop :=
  xltb (XF 0) (value s (qn false h) i t k) = false.

(** The gamma function at the two points the size distribution of a class
    needs, and the size distribution: the one with the number and the mass of
    the cell. *)
Definition gamma_known (Gam : R -> R) (mu : R) : Prop :=
  gamma_value (mu + 1) (Gam (mu + 1)) /\ gamma_value (mu + 4) (Gam (mu + 4)).
Definition carries (r q n mu lam n0 : R) : Prop :=
  0 < lam /\ 0 < n0 /\ integral_to_infinity (gamma_psd n0 lam mu) (n * 10 ^ 6) /\
  integral_to_infinity (fun d => sphere_mass r d * gamma_psd n0 lam mu d) q.

(** Fall velocity of a particle of diameter [d] (downward negative, but for
    NSSL cloud liquid), and the correction for the density of the air. *)
Definition class_speed (e : menv) (h : string) (w : R -> R) : Prop :=
  (mcphys e = "nssl"%string /\ forall d, w d = 1316 / 10 * Rpower d (824 / 1000)) \/
  (mcphys e <> "nssl"%string /\
   exists a b, assoc (vel_a e) h = Some a /\ assoc (vel_b e) h = Some b /\ forall d, w d = - (a * Rpower d b)).
Definition air_factor (e : menv) (s : dset) (h : string) (t k : nat) (x : R) : Prop :=
  (exists r0 ra g, assoc (vd_ref e) h = Some (Some r0) /\ var2 s "rho_a" g /\ g t k = XF ra /\
     0 < r0 /\ 0 < ra /\ x = Rpower (r0 / ra) (54 / 100)) \/
  ((assoc (vd_ref e) h = None \/ assoc (vd_ref e) h = Some None) /\ x = 1).

(** Reflectivity (mm^6 m-3) of a backscatter cross-section per volume; mean
    and spread of a quantity over the particles, weighted by backscatter. *)
Definition reflectivity (ins : inst) (b : R) : R := b * wavelen ins ^ 4 / (k_w ins * PI ^ 5) / 10 ^ 6.
Fixpoint products (V B : list R) : list R :=
  match V, B with v :: V', b :: B' => v * b :: products V' B' | _, _ => [] end.
Definition mean_of (D V B : list R) (n : R -> R) : R := population D (products V B) n / population D B n.
Definition spread_of (D V B : list R) (n : R -> R) : R :=
  sqrt (mean_of D (map (fun v => (v - mean_of D V B n) ^ 2) V) B n).

(** The velocity stored for a cell, 0 when there is none. *)
Definition speed_of (x : xr) : R := match x with XF v => v | _ => 0 end.
(** A class whose contribution to a cell is determined: an empty cell, or
    particles of a tabulated class with positive cross-sections. *)
Definition determined (Gam : R -> R) (e : menv) (ins : inst) (o : ropts) (s : dset) (h : string) (i t k : nat) : Prop :=
  holds_none s h i t k \/
  exists q n r tab D B A w x, holds_particles e s h i t k q n r /\ class_table e ins (r_mie o) h tab /\
    particle_table tab D B A /\ (forall b, In b B -> 0 < b) /\ (2 <= length D)%nat /\
    gamma_known Gam (class_shape e (r_kw o) h n) /\ class_speed e h w /\ air_factor e s h t k x.
