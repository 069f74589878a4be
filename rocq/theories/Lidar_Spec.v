(** What the lidar outputs should be. *)
From Verif Require Import Mom_Base Mom_Spec Lidar_Model.
Local Open Scope R_scope.

(** Optical depth at level [k] of a profile with heights [Z] and extinction
    [A]: the layers between the instrument and [k], each with the extinction
    of its level nearer to the instrument.  [od_up]: instrument at the
    surface; [od_down]: at the top of a profile of [n] levels. *)
Definition od_up (Z A : nat -> R) (k : nat) : R := sumR (fun j => (Z (S j) - Z j) * A j) k.
Definition od_down (n : nat) (Z A : nat -> R) (k : nat) : R :=
  sumR (fun j => (Z (S (k + j)) - Z (k + j)%nat) * A (S (k + j))) (n - 1 - k).

(** A number read with "missing" (NaN) as 0. *)
Definition num3 (e : menv) (s : dset) (name : string) (f : nat -> nat -> nat -> R) : Prop :=
  exists a, var3 s name a /\ forall i t k, cell e i t k -> fillna 0 (a i t k) = XF (f i t k).

(** The cloud types a model object processes. *)
Definition cloud_types (e : menv) : list bool := if p_conv e then [true; false] else [false].

(** The attenuated backscatter of molecular backscatter [bm], particulate
    backscatter [b], molecular transmittance [tau] and optical depth [od]. *)
Definition attenuated (eta bm b tau od : R) : R := (bm + b) * tau * exp (-2 * eta * od).

(** A value above the extinction threshold. *)
Definition exceeds (x : xr) (thr : R) : Prop :=
  match x with XF r => thr < r | XP => True | _ => False end.

(** [k'] is the next level after [k] as seen from the instrument. *)
Definition beyond (sfc : bool) (n k k' : nat) : Prop :=
  if sfc then k' = S k /\ (k' < n)%nat else k = S k'.

(** The classes a call processes: the caller's list, or the model's. *)
Definition classes_of (e : menv) (arg : option (list string)) (hs : list string) : Prop :=
  match arg with Some l => l = hs | None => hyds e = hs /\ hs <> [] end.

(** The depolarisation-ratio fields, and the sums of the weighted mean over
    cloud types [cls] and classes [hs] for backscatter [B] and per-class
    ratios [w]. *)
Definition ldr_name (c : bool) : string := ("sub_col_LDR_" ++ cs c)%string.
Definition ldr_num (cls : list bool) (hs : list string) (B : bool -> string -> nat -> nat -> nat -> R)
    (w : string -> R) (i t k : nat) : R :=
  sum_over cls (fun c => sum_over hs (fun h => B c h i t k * w h)).
Definition ldr_den (cls : list bool) (hs : list string) (B : bool -> string -> nat -> nat -> nat -> R)
    (i t k : nat) : R :=
  sum_over cls (fun c => sum_over hs (fun h => B c h i t k)).

(** Names the lidar calculations write: the molecular fields and every
    variable starting with "sub_col_". *)
Definition atm_fields : list string :=
  ["tau"; "u_atm"; "beta"; "sigma_180_vol"; "sigma_180"; "sigma"; "kappa"; "N_s"; "n_s"]%string.
Definition reserved (x : string) : Prop := In x atm_fields \/ exists y, x = ("sub_col_" ++ y)%string.

(** The dataset variables a model object's tables point to, for cloud type [c]. *)
Definition names_in (d : option (list (string * option string))) : list string :=
  match d with
  | None => []
  | Some l => flat_map (fun p => match snd p with Some n => [n] | None => [] end) l
  end.
Definition table_names (e : menv) (c : bool) : list string :=
  [p_name e; t_name e; z_name e; qv_name e; p3_ni e; p3_n0 e]
  ++ map snd (if c then re_conv e else re_strat e) ++ map snd (var_density e)
  ++ names_in (lam_field e) ++ names_in (mu_field e).
(** None of them is overwritten by the calculations. *)
Definition tables_ok (e : menv) (c : bool) : Prop :=
  forall x, In x (table_names e c) -> ~ reserved x.

(** The same call for another list of classes. *)
Definition with_hyds (o : lopts) (hs : list string) : lopts :=
  {| o_sfc := o_sfc o; o_hyds := Some hs; o_sched := o_sched o; o_eta := o_eta o;
     o_mie := o_mie o; o_rad := o_rad o; o_emp := o_emp o; o_kw := o_kw o |}.

(** A class whose bulk optics need nothing left over from other classes:
    the family uses effective-radius tables, or it is an ice class, or it is
    a liquid class with its own size-distribution fields. *)
Definition self_contained (e : menv) (h : string) : Prop :=
  rad_family e = "ModelE"%string \/ In h ice_classes \/
  (In h ["cl"; "pl"]%string /\ exists d ln, lam_field e = Some d /\ assoc d h = Some (Some ln)).
