(** The particles of a cell as the radar should see them, class by class. *)
From Coq Require Import Reals.
From Verif Require Import Mom_Base Mom_Spec Lidar_Model Lidar_Spec Psd_Model Psd_Spec Radar_Model Micro_Spec Micro_P3_Spec.
Local Open Scope R_scope.

(** Sizes, backscatter and extinction cross-sections and fall velocities of
    the tabulated particles, and how many there are per unit size. *)
Record particles := { pa_D : list R; pa_B : list R; pa_A : list R; pa_V : list R; pa_n : R -> R }.

(** Those of a class with a gamma distribution of the mass and number of the
    cell, and those of the ice of the P3 scheme. *)
Definition gamma_seen (Gam : R -> R) (e : menv) (ins : inst) (o : ropts) (s : dset) (h : string) (i t k : nat) (p : particles) : Prop :=
  exists q n r tab w x lam n0,
    holds_particles e s h i t k q n r /\ class_table e ins (r_mie o) h tab /\ particle_table tab (pa_D p) (pa_B p) (pa_A p) /\
    class_speed e h w /\ air_factor e s h t k x /\ carries r q n (class_shape e (r_kw o) h n) lam n0 /\
    pa_V p = map (fun d => w d * x) (pa_D p) /\ pa_n p = gamma_psd n0 lam (class_shape e (r_kw o) h n).
Definition p3_seen (e : menv) (ins : inst) (o : ropts) (s : dset) (i t k : nat) (p : particles) : Prop :=
  exists n0 lam mu W x,
    p3_present s i t k /\ p3_sections e ins (r_mie o) s t k (pa_D p) (pa_B p) (pa_A p) /\
    p3_distribution e s t k n0 lam mu /\ 0 < n0 /\
    p3_tabulated ins s t k "vt" (pa_D p) W /\ air_factor e s "ci" t k x /\
    pa_V p = map (fun w => - w * x) W /\ pa_n p = gamma_psd n0 lam mu.

(** What a class puts in a cell: nothing, or such particles. *)
Definition class_seen (Gam : R -> R) (e : menv) (ins : inst) (o : ropts) (s : dset) (h : string) (i t k : nat)
    (c : option particles) : Prop :=
  if String.eqb h "ci" && String.eqb (mcphys e) "P3" then
    match c with None => p3_absent s i t k | Some p => p3_seen e ins o s i t k p end
  else gamma_class e h /\
    match c with None => holds_none s h i t k | Some p => gamma_seen Gam e ins o s h i t k p end.
(** The class is one of the two, with a usable table. *)
Definition class_known (Gam : R -> R) (e : menv) (ins : inst) (o : ropts) (s : dset) (h : string) (i t k : nat) : Prop :=
  if String.eqb h "ci" && String.eqb (mcphys e) "P3" then
    p3_absent s i t k \/
    exists p, p3_seen e ins o s i t k p /\ (forall b, In b (pa_B p) -> 0 < b) /\ (2 <= length (pa_D p))%nat
  else gamma_class e h /\ determined Gam e ins o s h i t k.

(** A sum over the particles of several classes. *)
Definition over_classes (hs : list string) (P : string -> option particles) (f : particles -> list R) : R :=
  sum_over hs (fun h => match P h with Some p => population (pa_D p) (f p) (pa_n p) | None => 0 end).
(** Backscatter; backscatter-weighted mean velocity, and spread about it. *)
Definition all_backscatter hs P : R := over_classes hs P pa_B.
Definition all_mean hs P : R := over_classes hs P (fun p => products (pa_V p) (pa_B p)) / all_backscatter hs P.
Definition all_spread hs P : R :=
  sqrt (over_classes hs P (fun p => products (map (fun v => (v - all_mean hs P) ^ 2) (pa_V p)) (pa_B p)) / all_backscatter hs P).
